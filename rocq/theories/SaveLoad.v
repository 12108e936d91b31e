(** SaveLoad.v - model of NeuralNet::save and NeuralNet::load (/repo/src/neuralnet.cpp:99-152), down to the
    characters of the file and the state of the input stream.

    Two libc functions are parameters: [print] (what [out << w] writes: printf "%g", 6 significant digits) and
    [conv] (strtod applied to an accumulated numeral: the value to store and whether the conversion succeeded;
    a failed conversion stores 0, an out-of-range one +-DBL_MAX, and both set failbit).
    Simplifications: num_get drops redundant leading zeros before calling strtod (same value); the file is small enough
    to be written, and write errors (a full disk) are not modelled other than as a crash point. *)
From Verif Require Import Base Mat Act Layer Conv Misc Net.
From Coq Require Import Arith Ascii.
Local Open Scope nat_scope.

Definition text := list ascii.
Definition cspace : ascii := " "%char.
Definition cnl : ascii := "010"%char.
(** isspace in the C locale *)
Definition is_ws (c : ascii) : bool :=
  match nat_of_ascii c with 32 | 9 | 10 | 11 | 12 | 13 => true | _ => false end.
Definition is_digit (c : ascii) : bool := (48 <=? nat_of_ascii c) && (nat_of_ascii c <=? 57).
Definition is_sign (c : ascii) : bool := Ascii.eqb c "+"%char || Ascii.eqb c "-"%char.
Definition is_exp (c : ascii) : bool := Ascii.eqb c "e"%char || Ascii.eqb c "E"%char.
Definition is_dot (c : ascii) : bool := Ascii.eqb c "."%char.

(** Which characters [in >> double] takes: libstdc++'s num_get (_M_extract_float) in the C locale.  [mant]: a digit
    was seen; [dec]: the point was seen; [sci]: the exponent mark was seen; [pe]: it was the previous character. *)
Fixpoint take_body (mant dec sci pe : bool) (l : text) : text * text :=
  match l with
  | [] => ([], [])
  | c :: r =>
      if pe && is_sign c then let '(a, b) := take_body mant dec sci false r in (c :: a, b)
      else if is_digit c then let '(a, b) := take_body true dec sci false r in (c :: a, b)
      else if is_dot c && negb dec && negb sci then let '(a, b) := take_body mant true sci false r in (c :: a, b)
      else if is_exp c && negb sci && mant then let '(a, b) := take_body mant dec true true r in (c :: a, b)
      else ([], l)
  end.
Definition take_num (l : text) : text * text :=
  match l with
  | c :: r => if is_sign c then let '(a, b) := take_body false false false false r in (c :: a, b) else take_body false false false false l
  | [] => ([], [])
  end.
Fixpoint skip_ws (l : text) : text := match l with c :: r => if is_ws c then skip_ws r else l | [] => [] end.

Section SaveLoad.
Context {D : dtype}.
Notation mat := (mat D).
Notation net := (net D).
Notation lheap := (lheap D).
Context (print : D -> text) (conv : text -> D * bool).

(** ** The input stream: the characters left, and good() (no eofbit, no failbit) *)
Record stream := ST { s_rest : text; s_good : bool }.
(** [double val = 0; in >> val;] (neuralnet.cpp:129-130, 142-143) *)
Definition read1 (s : stream) : D * stream :=
  if s_good s then
    match skip_ws (s_rest s) with
    | [] => (dofZ 0, ST [] false)                                      (* eofbit and failbit; val untouched *)
    | l => let '(tok, rest) := take_num l in
           let '(v, ok) := conv tok in
           (v, ST rest (ok && match rest with [] => false | _ => true end))  (* eofbit when the end is reached *)
    end
  else (dofZ 0, s).
Fixpoint reads (k : nat) (s : stream) : list D * stream :=
  match k with 0 => ([], s) | S k' => let '(v, s1) := read1 s in let '(vs, s2) := reads k' s1 in (v :: vs, s2) end.
(** the double loop with w(j, k) = val *)
Definition mat_of (r c : nat) (vs : list D) : mat := mk r c (fun i j => nth (i * c + j) vs d0).
Definition load_mat (w : mat) (s : stream) : mat * stream :=
  let '(vs, s') := reads (nr w * nc w) s in (mat_of (nr w) (nc w) vs, s').

(** ** save: the text written (neuralnet.cpp:103-118) *)
Definition rowlist (w : mat) : list D := map (fun ij => at_ w (fst ij) (snd ij)) (rowmajor (nr w) (nc w)).
Definition mat_text (w : mat) : text := flat_map (fun x => print x ++ [cspace]) (rowlist w) ++ [cnl].
Definition net_save (n : net) (H : lheap) : res text :=
  hs <- mapM (fun p => h <- lget H p ;; Ok (mat_text (l_W (h_base h)))) (n_hidden n) ;;
  Ok (concat hs ++ mat_text (l_W (o_l (n_output n)))).
(** The file during save: opening truncates it, then the text is appended in order; a crash can leave any prefix.
    [old] is its contents before the call. *)
Inductive crash_file (old : option text) (txt : text) : option text -> Prop :=
| crash_before : crash_file old txt old
| crash_during p q : p ++ q = txt -> crash_file old txt (Some p).

(** ** load (neuralnet.cpp:122-152); [None]: the file could not be opened *)
Definition load_step (Hs : lheap * stream) (p : nat) : res (lheap * stream) :=
  let '(H, s) := Hs in
  h <- lget H p ;;
  let '(w, s') := load_mat (l_W (h_base h)) s in
  Ok (upd p (h_with h (set_W (h_base h) w)) H, s').
Definition net_load (n : net) (H : lheap) (file : option text) : res (net * lheap) :=
  match file with
  | None => Ok (n, H)
  | Some f =>
      '(H', s) <- foldM load_step (n_hidden n) (H, ST f true) ;;
      let '(w, _) := load_mat (l_W (o_l (n_output n))) s in
      Ok (net_setoutputw n w, H')
  end.

End SaveLoad.
