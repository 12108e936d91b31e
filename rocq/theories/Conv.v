(** Conv.v - model of /repo/src/layer/conv2dlayer.cpp, maxpoollayer.cpp and meanpoollayer.cpp.
    The OpenMP pragmas in these files are inactive: nothing in the build defines the macro HAVE_OPENMP.
    Simplifications: int arithmetic on the layer's sizes is taken without overflow, and the filter size is
    taken as non-negative in the pooling window counts. *)
From Verif Require Import Base Mat Act Layer.
From Coq Require Import Arith.
Local Open Scope Z_scope.

Section Conv.
Context {D : dtype}.
Notation mat := (mat D).
Notation actfunc := (actfunc D).
Context (draw : D -> nat -> D) (junk : nat -> D).

(** conv2dlayer.h:24-33; [None] is an int member that was never initialised.  [cv_images] are the slices. *)
Record conv := CV {
  cv_l : layer D;
  cv_iw : Z; cv_ih : Z; cv_isize : option Z;
  cv_ow : option Z; cv_oh : option Z; cv_osize : option Z;
  cv_pnf : Z; cv_nf : Z; cv_sp : Z; cv_st : Z; cv_pad : Z;
  cv_images : list mat }.

Definition rd (o : option Z) : res Z := match o with Some v => Ok v | None => Undef UninitRead end.
(** C++ int division *)
Definition idiv (a b : Z) : res Z := if b =? 0 then Undef DivZero else Ok (Z.quot a b).

(** conv2dlayer.cpp:5-6 *)
Definition conv_default : conv := CV layer_default 0 0 None None None None 0 0 0 0 0 [].

(** conv2dlayer.cpp:8-20; the base constructor is layer.cpp:18-23 with lambda = 0 *)
Definition conv_new (iw ih pnf nf sp st pad : Z) (lrate : D) (f : actfunc) : res conv :=
  l <- layer_new draw junk (sp * pnf - 1) (sp * nf) lrate d1 (dofZ 0) f ;;
  let l' := randominit draw (dsqrt (dofZ (sp * pnf))) l in
  qw <- idiv (iw - sp + 2 * pad) st ;;
  qh <- idiv (ih - sp + 2 * pad) st ;;
  let ow := qw + 1 in let oh := qh + 1 in
  Ok (CV l' iw ih (Some (iw * ih)) (Some ow) (Some oh) (Some (ow * oh)) pnf nf sp st pad []).

(** conv2dlayer.cpp:28-38: note [stride = conv.spatial]; the base-class part and inputsize, outputwidth,
    outputheight, outputsize are not assigned. *)
Definition conv_assign (dst src : conv) : conv :=
  CV (cv_l dst) (cv_iw src) (cv_ih src) (cv_isize dst) (cv_ow dst) (cv_oh dst) (cv_osize dst)
     (cv_pnf src) (cv_nf src) (cv_sp src) (cv_sp src) (cv_pad src) (cv_images src).
(** conv2dlayer.cpp:22-26 *)
Definition conv_copy (src : conv) : res conv :=
  l <- layer_new draw junk (cv_sp src * cv_pnf src - 1) (cv_sp src * cv_nf src) (l_lrate (cv_l src)) d1 (dofZ 0) (l_act (cv_l src)) ;;
  Ok (conv_assign (CV l 0 0 None None None None 0 0 0 0 0 []) src).

(** conv2dlayer.cpp:102-107 *)
Definition toimage (pa : mat) (filter w h : Z) : res mat :=
  let size := w * h in
  img <- mcols pa (filter * size) ((filter + 1) * size - 1) ;;
  Ok (reshape img (Z.to_nat h) (Z.to_nat w)).

(** conv2dlayer.cpp:109-120 *)
Definition addzeropadding (pad : Z) (image : mat) : res mat :=
  m <- foldM (fun m _ => m1 <- addrows m 0 d0 ;; addrows m1 (nr m1) d0) (zrange pad) image ;;
  foldM (fun m _ => m1 <- addcols m 0 d0 ;; addcols m1 (nc m1) d0) (zrange pad) m.

(** conv2dlayer.cpp:40-41, the macro SPATIAL as an rvalue *)
Definition spatial_of (m : mat) (sp j k : Z) : res mat :=
  submat m (j * sp) (k * sp) ((j + 1) * sp - 1) ((k + 1) * sp - 1).

(** conv2dlayer.cpp:122-125 *)
Definition flip (w : mat) (sp pn n : Z) : res mat :=
  f <- spatial_of w sp pn n ;; Ok (fliplr (flipud f)).

(** unsigned 64-bit to int conversion *)
Definition to_int (z : Z) : Z := (z + 2147483648) mod 4294967296 - 2147483648.
(** [(x.n_cols - y.n_cols) / stride + 1]: the subtraction and the division are unsigned *)
Definition out_dim (xn yn : nat) (st : Z) : res Z :=
  if st =? 0 then Undef DivZero
  else Ok (to_int (((Z.of_nat xn - Z.of_nat yn) mod 2 ^ 64) / (st mod 2 ^ 64) + 1)).

(** [for (int i = 0; i < n; i += st)], st > 0 *)
Definition steps (n st : Z) : list Z := filter (fun i => i mod st =? 0) (zrange n).

(** [mat(1, n)] uninitialised *)
Definition row_uninit (n : Z) : res mat := if n <? 0 then Throw else Ok (mat_uninit junk 1 (Z.to_nat n)).

(** conv2dlayer.cpp:129-141.  With a negative stride the second inner iteration asks for a negative
    column and throws. *)
Definition convolve (st : Z) (x y : mat) : res mat :=
  ow <- out_dim (nc x) (nc y) st ;;
  oh <- out_dim (nr x) (nr y) st ;;
  out0 <- row_uninit (ow * oh) ;;
  if st <? 0 then Throw else
  foldM (fun out i =>
    foldM (fun out j =>
      s <- submat x i j (i + Z.of_nat (nr y) - 1) (j + Z.of_nat (nc y) - 1) ;;
      r <- mschur s y ;;
      mset out 0 (i * ow + j) (sumall r)) (steps ow st) out) (steps oh st) out0.

Definition cv_set (c : conv) (l : layer D) (imgs : list mat) : conv :=
  CV l (cv_iw c) (cv_ih c) (cv_isize c) (cv_ow c) (cv_oh c) (cv_osize c) (cv_pnf c) (cv_nf c) (cv_sp c) (cv_st c) (cv_pad c) imgs.
Definition set_a (l : layer D) (a : mat) : layer D :=
  L (l_lrate l) (l_lambda l) (l_act l) (l_pa l) (l_z l) a (l_delta l) (l_W l) (l_grad l).
Definition set_dg (l : layer D) (d g : mat) : layer D :=
  L (l_lrate l) (l_lambda l) (l_act l) (l_pa l) (l_z l) (l_a l) d (l_W l) g.

(** [mat(r, c, fill::zeros)] with int arguments *)
Definition zerosZ (r : nat) (c : Z) : res mat := if c <? 0 then Throw else Ok (zeros r (Z.to_nat c)).
(** [cube(h, w, n)]: slices of indeterminate contents *)
Definition cube_new (h w : Z) (n : nat) : res (list mat) :=
  if (h <? 0) || (w <? 0) then Throw else Ok (repeat (mat_uninit junk (Z.to_nat h) (Z.to_nat w)) n).
(** [images.slice(i) = m] *)
Definition set_slice (c : list mat) (i : nat) (m : mat) : res (list mat) :=
  match nth_error c i with
  | Some old => if ((nr old =? nr m) && (nc old =? nc m))%nat then Ok (upd i m c) else Throw
  | None => Throw
  end.
Definition slice (c : list mat) (i : nat) : res mat := match nth_error c i with Some m => Ok m | None => Throw end.

(** The triple loop shared by the three forward passes (conv2dlayer.cpp:47-63, maxpoollayer.cpp:26-45,
    meanpoollayer.cpp:22-40).  [body img j k] is what the innermost iteration adds to output channel k.
    The image is taken from the whole batch [pa], not from the row [sample]. *)
Definition forward_loop (c : conv) (osize : Z) (body : mat -> Z -> Z -> res mat) (pa : mat) (a0 : mat) (imgs0 : list mat)
  : res (mat * list mat) :=
  foldM (fun '(a, imgs) i =>
    foldM (fun '(a, imgs) j =>
      img <- toimage pa j (cv_iw c) (cv_ih c) ;;
      padded <- addzeropadding (cv_pad c) img ;;
      imgs' <- set_slice imgs i padded ;;
      a' <- foldM (fun a k =>
              sl <- slice imgs' i ;;
              p <- body sl j k ;;
              set_submat dadd a (Z.of_nat i) (k * osize) (Z.of_nat i) ((k + 1) * osize - 1) p) (zrange (cv_nf c)) a ;;
      Ok (a', imgs')) (zrange (cv_pnf c)) (a, imgs)) (seq 0 (nr pa)) (a0, imgs0).

(** conv2dlayer.cpp:43-65 *)
Definition conv_forward (c : conv) (pa : mat) : res (mat * conv) :=
  osize <- rd (cv_osize c) ;;
  a0 <- zerosZ (nr pa) (osize * cv_nf c) ;;
  imgs0 <- cube_new (cv_ih c + 2 * cv_pad c) (cv_iw c + 2 * cv_pad c) (nr pa) ;;
  '(a, imgs) <- forward_loop c osize (fun sl j k => w <- spatial_of (l_W (cv_l c)) (cv_sp c) j k ;; convolve (cv_st c) sl w) pa a0 imgs0 ;;
  Ok (funcop a (act (l_act (cv_l c))), cv_set c (set_a (cv_l c) a) imgs).

(** conv2dlayer.cpp:67-100 *)
Definition conv_backprop (c : conv) (del : mat) : res (mat * conv) :=
  isize <- rd (cv_isize c) ;;
  delta0 <- zerosZ (nr del) (isize * cv_pnf c) ;;
  let l := cv_l c in
  let grad0 := zeros (nr (l_grad l)) (nc (l_grad l)) in
  let d := funcop del (actd (l_act l)) in
  '(delta, grad) <-
    foldM (fun '(delta, grad) i =>
      deltay <- mrow d i ;;
      foldM (fun '(delta, grad) k =>
        ow <- rd (cv_ow c) ;; oh <- rd (cv_oh c) ;;
        dimg <- toimage deltay k ow oh ;;
        foldM (fun '(delta, grad) j =>
          sl <- slice (cv_images c) i ;;
          pg <- convolve (cv_st c) sl dimg ;;
          let pg' := reshape pg (Z.to_nat (cv_sp c)) (Z.to_nat (cv_sp c)) in
          grad' <- set_submat dadd grad (j * cv_sp c) (k * cv_sp c) ((j + 1) * cv_sp c - 1) ((k + 1) * cv_sp c - 1) pg' ;;
          padd <- addzeropadding (cv_pad c) dimg ;;
          fl <- flip (l_W l) (cv_sp c) j k ;;
          pd <- convolve (cv_st c) padd fl ;;
          delta' <- set_submat dadd delta (Z.of_nat i) (j * isize) (Z.of_nat i) ((j + 1) * isize - 1) pd ;;
          Ok (delta', grad')) (zrange (cv_pnf c)) (delta, grad)) (zrange (cv_nf c)) (delta, grad)) (seq 0 (nr d)) (delta0, grad0) ;;
  Ok (delta, cv_set c (set_dg l delta grad) (cv_images c)).

(** ** MaxPoolLayer *)

(** maxpoollayer.h:20-23 *)
Record maxpool := MP { mp_c : conv; mp_indexes : mat }.
(** maxpoollayer.cpp:5-8 *)
Definition maxpool_new (iw ih nf sp st : Z) : res maxpool :=
  c <- conv_new iw ih nf nf sp st 0 (dofZ 0) identity ;; Ok (MP c mempty).
(** maxpoollayer.cpp:10-19 *)
Definition maxpool_copy (p : maxpool) : res maxpool := c <- conv_copy (mp_c p) ;; Ok (MP c (mp_indexes p)).
Definition maxpool_assign (dst src : maxpool) : maxpool := MP (conv_assign (mp_c dst) (mp_c src)) (mp_indexes src).

(** maxpoollayer.cpp:77-89: row-major scan, the running maximum starts at 0 *)
Definition maxval (m : mat) : D * Z * Z :=
  fold_left (fun '(best, r, c) '(i, j) =>
      if dltb best (at_ m i j) then (at_ m i j, Z.of_nat i, Z.of_nat j) else (best, r, c))
    (rowmajor (nr m) (nc m)) (dofZ 0, 0, 0).

(** maxpoollayer.cpp:57-75 *)
Definition do_maxpool (sp st : Z) (image : mat) : res (mat * mat) :=
  ow <- out_dim (nc image) (Z.to_nat sp) st ;;
  oh <- out_dim (nr image) (Z.to_nat sp) st ;;
  out0 <- zerosZ 1 (ow * oh) ;;
  idx0 <- zerosZ 1 (ow * oh * 2) ;;
  foldM (fun '(out, idx) i =>
    foldM (fun '(out, idx) j =>
      s <- submat image i j (i + sp - 1) (j + sp - 1) ;;
      let '(v, r, c) := maxval s in
      out' <- mset out 0 (i * ow + j) v ;;
      idx1 <- mset idx 0 (i * ow * 2 + j) (dofZ r) ;;
      idx2 <- mset idx1 0 (i * ow * 2 + j + 1) (dofZ c) ;;
      Ok (out', idx2)) (zrange ow) (out, idx)) (zrange oh) (out0, idx0).

(** maxpoollayer.cpp:21-47.  Like [forward_loop], with the index matrix carried along. *)
Definition maxpool_forward (p : maxpool) (pa : mat) : res (mat * maxpool) :=
  let c := mp_c p in
  osize <- rd (cv_osize c) ;;
  a0 <- zerosZ (nr pa) (osize * cv_nf c) ;;
  imgs0 <- cube_new (cv_ih c + 2 * cv_pad c) (cv_iw c + 2 * cv_pad c) (nr pa) ;;
  idx0 <- (if osize * 2 <? 0 then Throw else Ok (mat_uninit junk (nr pa) (Z.to_nat (osize * 2)))) ;;
  '(a, imgs, idx) <-
    foldM (fun '(a, imgs, idx) i =>
      foldM (fun '(a, imgs, idx) j =>
        img <- toimage pa j (cv_iw c) (cv_ih c) ;;
        padded <- addzeropadding (cv_pad c) img ;;
        imgs' <- set_slice imgs i padded ;;
        '(a', idx') <- foldM (fun '(a, idx) k =>
                sl <- slice imgs' i ;;
                '(o, index) <- do_maxpool (cv_sp c) (cv_st c) sl ;;
                a' <- set_submat dadd a (Z.of_nat i) (k * osize) (Z.of_nat i) ((k + 1) * osize - 1) o ;;
                idx' <- set_submat put idx (Z.of_nat i) 0 (Z.of_nat i) (osize * 2 - 1) index ;;
                Ok (a', idx')) (zrange (cv_nf c)) (a, idx) ;;
        Ok (a', imgs', idx')) (zrange (cv_pnf c)) (a, imgs, idx)) (seq 0 (nr pa)) (a0, imgs0, idx0) ;;
  Ok (funcop a (act (l_act (cv_l c))), MP (cv_set c (set_a (cv_l c) a) imgs) idx).

(** maxpoollayer.cpp:49-51; update (53-55) does nothing *)
Definition maxpool_backprop (p : maxpool) (delta : mat) : res (mat * maxpool) := Ok (delta, p).

(** ** MeanPoolLayer (its two update functions are declared but not defined anywhere) *)

(** meanpoollayer.cpp:5-8 *)
Definition meanpool_new (iw ih nf sp st : Z) : res conv := conv_new iw ih nf nf sp st 0 (dofZ 0) identity.

(** meanpoollayer.cpp:63-71 *)
Definition meanval (m : mat) : D :=
  ddiv (ddiv (fold_left (fun acc ij => dadd acc (at_ m (fst ij) (snd ij))) (rowmajor (nr m) (nc m)) (dofZ 0))
             (dofZ (Z.of_nat (nr m)))) (dofZ (Z.of_nat (nc m))).

(** meanpoollayer.cpp:48-61 *)
Definition do_meanpool (sp st : Z) (image : mat) : res mat :=
  ow <- out_dim (nc image) (Z.to_nat sp) st ;;
  oh <- out_dim (nr image) (Z.to_nat sp) st ;;
  out0 <- zerosZ 1 (ow * oh) ;;
  foldM (fun out i =>
    foldM (fun out j =>
      s <- submat image i j (i + sp - 1) (j + sp - 1) ;;
      mset out 0 (i * ow + j) (meanval s)) (zrange ow) out) (zrange oh) out0.

(** meanpoollayer.cpp:18-42 *)
Definition meanpool_forward (c : conv) (pa : mat) : res (mat * conv) :=
  osize <- rd (cv_osize c) ;;
  a0 <- zerosZ (nr pa) (osize * cv_nf c) ;;
  imgs0 <- cube_new (cv_ih c + 2 * cv_pad c) (cv_iw c + 2 * cv_pad c) (nr pa) ;;
  '(a, imgs) <- forward_loop c osize (fun sl _ _ => do_meanpool (cv_sp c) (cv_st c) sl) pa a0 imgs0 ;;
  Ok (funcop a (act (l_act (cv_l c))), cv_set c (set_a (cv_l c) a) imgs).

(** meanpoollayer.cpp:44-46 *)
Definition meanpool_backprop (c : conv) (_ : mat) : res (mat * conv) := Ok (mempty, c).

End Conv.
Arguments conv : clear implicits.
Arguments maxpool : clear implicits.
