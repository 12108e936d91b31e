(** TVal.v - specification for C75: the tensor programs of Hist.v read as programs over immutable values.

    A variable holds a list of extents and the row-major list of elements (or no elements: default-constructed
    or moved-from).  There is no heap, no buffer, no aliasing and no schedule here. *)
From Verif Require Import Base TSpec Hist.
Local Open Scope Z_scope.

Section TVal.
Context {D : dtype}.

Record val := V { v_dims : list Z; v_els : option (list D) }.
Definition venv := list (option val).

Definition entry (xs : list D) (i : Z) : D := nth (Z.to_nat i) xs d0.
Definition tab (n : Z) (f : Z -> D) : list D := map f (zrange n).
Definition mask01 (b : bool) : D := if b then d1 else d0.

(** Valid extents: at least one, the first not negative, the others positive, products within int. *)
Definition signsb (d : list Z) : bool := match d with [] => false | x :: r => (0 <=? x) && forallb (fun y => 0 <? y) r end.
Fixpoint fitsb (d : list Z) : bool := match d with [] => true | _ :: r => (prodZ d <=? INT_MAX) && fitsb r end.
Definition fill (d : list Z) (xs : list D) : res val :=
  if signsb d then if fitsb d then Ok (V d (Some xs)) else Undef IntOverflow else Abort.

Definition same (d1 d2 : list Z) : bool := if list_eq_dec Z.eq_dec d1 d2 then true else false.
(** + - * /: equal extents element by element; if d2 is a proper suffix of d1, the second operand is repeated
    along the axis before it, and only the first slice along the axes further left is computed (the rest is 0). *)
Definition v_arith (f : D -> D -> D) (d1 : list Z) (xs : list D) (d2 : list Z) (ys : list D) : res val :=
  let k := (length d1 - length d2)%nat in
  if same d1 d2 then Ok (V d1 (Some (zipw f xs ys)))
  else if (length d2 <? length d1)%nat && same (skipn k d1) d2 then
    let upto := match k with 1%nat => numel d1 | _ => prodZ (skipn (k - 1) d1) end in
    Ok (V d1 (Some (tab (numel d1) (fun i => if i <? upto then f (entry xs i) (entry ys (i mod prodZ d2)) else d0))))
  else Abort.
Definition v_mask (p : D -> D -> bool) (d1 : list Z) (xs : list D) (d2 : list Z) (ys : list D) : res val :=
  if (length d1 =? length d2)%nat then Ok (V d1 (Some (zipw (fun x y => mask01 (p x y)) xs ys))) else Abort.
Definition v_bin (b : bop) (d1 : list Z) (xs : list D) (d2 : list Z) (ys : list D) : res val :=
  match b with
  | BAdd => v_arith dadd d1 xs d2 ys | BSub => v_arith dsub d1 xs d2 ys
  | BMul => v_arith dmul d1 xs d2 ys | BDiv => v_arith ddiv d1 xs d2 ys
  | BPow => if same d1 d2 then Ok (V d1 (Some (zipw dpow xs ys))) else Abort
  | BEq => v_mask deqb d1 xs d2 ys
  | BEqual eps => if dleb d0 eps then v_mask (fun x y => dltb (dabs (dsub x y)) eps) d1 xs d2 ys else Abort
  end.
Definition v_un (u : uop) (d : list Z) (xs : list D) : res val :=
  let m f := Ok (V d (Some (map f xs))) in
  match u with
  | UNeg => m dneg | UExp => m dexp | ULog => m dlog | USqrt => m dsqrt
  | UAddv v => m (fun x => dadd x v) | USubv v => m (fun x => dsub x v) | UMulv v => m (fun x => dmul x v)
  | UDivv v => m (fun x => ddiv x v) | UPowv v => m (fun x => dpow x v)
  | UEqv v => m (fun x => mask01 (deqb x v))
  | UEqualv v eps => if dleb d0 eps then m (fun x => mask01 (dltb (dabs (dsub x v)) eps)) else Abort
  end.
(** Reductions of a matrix: axis 0 gives one value per column, any other axis one per row. *)
Definition v_red1 (r : rop) (l : list D) : D :=
  match r with
  | RSum => fold_left dadd l d0
  | RMean => ddiv (fold_left dadd l d0) (dofZ (Z.of_nat (length l)))
  | RMax => match l with [] => d0 | a :: r => fold_left (fun m v => if dltb m v then v else m) r a end
  | RMin => match l with [] => d0 | a :: r => fold_left (fun m v => if dltb v m then v else m) r a end
  end.
Definition v_red (r : rop) (axis : Z) (d : list Z) (xs : list D) : res val :=
  match d with
  | [rows; cols] =>
      if axis =? 0 then Ok (V [cols] (Some (tab cols (fun c => v_red1 r (tab rows (fun i => entry xs (i * cols + c)))))))
      else Ok (V [rows] (Some (if rows =? 0 then [d0] else tab rows (fun i => v_red1 r (tab cols (fun c => entry xs (i * cols + c)))))))
  | _ => Abort
  end.
Definition v_mat (d1 : list Z) (xs : list D) (d2 : list Z) (ys : list D) : res val :=
  match d1, d2 with
  | [m; k], [k'; n] =>
      if (k =? k') && (0 <? m) && (0 <? k) && (0 <? n) then
        if m * n <=? INT_MAX then
          Ok (V [m; n] (Some (tab (m * n) (fun q =>
            fold_left (fun s l => dadd s (dmul (entry xs (q / n * k + l)) (entry ys (l * n + q mod n)))) (zrange k) d0))))
        else Undef IntOverflow
      else Abort
  | _, _ => Abort
  end.

Definition vget (a : venv) (x : nat) : res (list Z * list D) :=
  match nth_error a x with Some (Some (V d (Some xs))) => Ok (d, xs) | _ => Undef NullDeref end.
Definition veval (ex : expr) (a : venv) : res val :=
  match ex with
  | ENew d => fill d (repeat d0 (Z.to_nat (numel d)))
  | EOnes d => fill d (repeat d1 (Z.to_nat (numel d)))
  | EEyes n => if 0 <? n then fill [n; n] (tab (n * n) (fun q => mask01 (q / n =? q mod n))) else Abort
  | EGauss draw d => fill d (tab (numel d) draw)
  | ECopy x => '(d, xs) <- vget a x ;; Ok (V d (Some xs))
  | EBin b _ x y => '(d1, xs) <- vget a x ;; '(d2, ys) <- vget a y ;; v_bin b d1 xs d2 ys
  | EUn u _ x => '(d, xs) <- vget a x ;; v_un u d xs
  | ERed r _ x axis => '(d, xs) <- vget a x ;; v_red r axis d xs
  | EMat _ x y => '(d1, xs) <- vget a x ;; '(d2, ys) <- vget a y ;; v_mat d1 xs d2 ys
  end.
Definition vexec (st : stmt) (a : venv) : res venv :=
  match st with
  | SDecl ex => v <- veval ex a ;; Ok (a ++ [Some v])
  | SDefault => Ok (a ++ [Some (V [0] None)])
  | SGet x i => Ok a
  | SSet x i v => '(d, xs) <- vget a x ;; Ok (upd x (Some (V d (Some (upd (Z.to_nat i) v xs)))) a)
  | SReshape x d => match nth_error a x with
                    | Some (Some (V d0 els)) => _ <- fill d [] ;; if numel d =? numel d0 then Ok (upd x (Some (V d els)) a) else Abort
                    | _ => Undef NullDeref end
  | SAssign x y => '(d, xs) <- vget a y ;; Ok (upd x (Some (V d (Some xs))) a)
  | SAssignE x ex => v <- veval ex a ;; Ok (upd x (Some v) a)
  | SMove x y => match nth_error a y with
                 | Some (Some (V d els)) => Ok (upd x (Some (V d els)) (upd y (Some (V d None)) a))
                 | _ => Undef NullDeref end
  | SMatInto _ x y z =>
      '(d1, xs) <- vget a x ;; '(d2, ys) <- vget a y ;; v <- v_mat d1 xs d2 ys ;;
      match nth_error a z, v_els v with
      | Some (Some (V d (Some zs))), Some ws =>
          if (length ws <=? length zs)%nat then Ok (upd z (Some (V d (Some (ws ++ skipn (length ws) zs)))) a) else Ok (upd z (Some v) a)
      | _, _ => Ok (upd z (Some v) a)
      end
  | SDestroy x => Ok (upd x None a)
  end.
Definition vrun (p : list stmt) (a : venv) : res venv := foldM (fun a st => vexec st a) p a.

(** Which statements may be written (all others are undefined behaviour in C++, see C05, C08, C11, C14, C15). *)
Definition full (a : venv) (x : nat) (d : list Z) : Prop := exists xs, nth_error a x = Some (Some (V d (Some xs))).
Definition exists_ (a : venv) (x : nat) : Prop := exists v, nth_error a x = Some (Some v).
Definition vwt_expr (ex : expr (D := D)) (a : venv) : Prop :=
  match ex with
  | ENew d | EOnes d | EGauss _ d => ints d
  | EEyes n => INT_MIN <= n <= INT_MAX
  | ECopy x => exists d, full a x d
  | EBin b _ x y => exists d1 d2, full a x d1 /\ full a y d2 /\
      match b with
      | BAdd | BSub | BMul | BDiv => hd 0 d1 <> 0 \/ (length d1 <= length d2 + 1)%nat
      | BPow => True
      | BEq | BEqual _ => numel d1 <= numel d2
      end
  | EUn _ _ x => exists d, full a x d
  | ERed r _ x axis => exists d, full a x d /\ match r with RSum | RMean => True | RMax | RMin => axis = 0 -> hd 0 d <> 0 end
  | EMat _ x y => exists d1 d2, full a x d1 /\ full a y d2
  end.
Definition vwt (st : stmt (D := D)) (a : venv) : Prop :=
  match st with
  | SDecl ex => vwt_expr ex a
  | SDefault => True
  | SGet x i | SSet x i _ => exists d, full a x d /\ 0 <= i < numel d
  | SReshape x d => exists_ a x /\ ints d
  | SAssign x y => exists d1 d2, full a x d1 /\ full a y d2 /\ numel d1 = numel d2
  | SAssignE x ex => exists_ a x /\ vwt_expr ex a
  | SMove x y => exists_ a x /\ exists_ a y /\ x <> y
  | SMatInto _ x y z => (exists d1 d2, full a x d1 /\ full a y d2) /\ exists_ a z /\ z <> x /\ z <> y
  | SDestroy x => exists_ a x
  end.
Fixpoint vwt_run (p : list (stmt (D := D))) (a : venv) : Prop :=
  match p with [] => True | st :: r => vwt st a /\ forall a', vexec st a = Ok a' -> vwt_run r a' end.

End TVal.
Arguments val : clear implicits.
Arguments venv : clear implicits.
