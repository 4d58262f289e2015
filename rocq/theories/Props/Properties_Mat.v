(** C35-C44, C182: math/mat (products, transposition, LU factorisation, determinant, solving). *)
From Coq Require Import ZArith List Lia Lra Bool Reals.
From Verif Require Import Base.Res Base.Num Model.Mat Spec.Matrix Proof.MatP Proof.LUS Proof.MatThm Proof.MatSize.
Import ListNotations.
Open Scope R_scope.

(** C35.  The arguments are values of the model, so they cannot change; the code
    writes only to the freshly allocated result. *)
Theorem C35_mult_square : forall a b n h, (0 < n)%Z -> (0 < h)%Z -> zlen a = (n * h)%Z -> zlen b = (n * n)%Z ->
  exists c, mult (Mat a n h) (Mat b n n) = Ok (Mat c n h) /\ zlen c = (n * h)%Z /\
    forall i j, (0 <= i < h)%Z -> (0 <= j < n)%Z -> entry n c i j = mat_mul n (entry n a) (entry n b) i j.
Proof. exact mult_square. Qed.
Print Assumptions C35_mult_square.

Example C35_example : exists c, mult (Mat [1; 2; 3; 4; 5; 6] 2 3) (Mat [1; -1; 0; 2] 2 2) = Ok (Mat c 2 3) /\ entry 2 c 2 1 = 7.
Proof. eexists. split; [evalL; reflexivity|]. cbv -[Rplus Rminus Rmult Rdiv Rinv Ropp IZR]. lra. Qed.

(** C36: false of the code.  Every product with a narrower right hand side and
    at least two rows panics; a wider one gives wrong entries without a panic. *)
Theorem C36_mult_refuted : forall a b n w h, (0 < n)%Z -> (0 < w)%Z -> (0 < h)%Z ->
  zlen a = (n * h)%Z -> zlen b = (w * n)%Z -> (2 <= h)%Z -> (w < n)%Z -> mult (Mat a n h) (Mat b w n) = Panic.
Proof. exact mult_narrow. Qed.
Print Assumptions C36_mult_refuted.

Theorem C36_mult_wide_refuted : exists c, mult (Mat [1; 2] 1 2) (Mat [1; 10; 100] 3 1) = Ok (Mat c 3 2) /\
  entry 3 c 0 1 <> mat_mul 1 (entry 1 [1; 2]) (entry 3 [1; 10; 100]) 0 1.
Proof. exact mult_wide_bad. Qed.
Print Assumptions C36_mult_wide_refuted.

(** Missing: shapes with w <> n and more than one row (refuted above). *)
Theorem C36_mult_partial : forall a b n w h, (0 < n)%Z -> (0 < w)%Z -> (0 < h)%Z ->
  zlen a = (n * h)%Z -> zlen b = (w * n)%Z -> w = n \/ h = 1%Z ->
  exists c, mult (Mat a n h) (Mat b w n) = Ok (Mat c w h) /\ zlen c = (w * h)%Z /\
    forall i j, (0 <= i < h)%Z -> (0 <= j < w)%Z -> entry w c i j = mat_mul n (entry n a) (entry w b) i j.
Proof. exact mult_shape. Qed.
Print Assumptions C36_mult_partial.

Example C36_example : @zlen R [1; 2; 3; 4] = (2 * 2)%Z /\ @zlen R [5; 6] = (1 * 2)%Z /\ (1 < 2)%Z /\
  exists c, mult (Mat [1; 2; 3] 3 1) (Mat [1; 2; 3; 4; 5; 6] 2 3) = Ok (Mat c 2 1) /\ entry 2 c 0 1 = 28.
Proof.
  split; [reflexivity|]. split; [reflexivity|]. split; [lia|].
  eexists. split; [evalL; reflexivity|]. cbv -[Rplus Rminus Rmult Rdiv Rinv Ropp IZR]. lra.
Qed.

(** C37.  The second theorem is about the recursion with any cut-off (the code
    uses 16000000), so it covers every way of splitting. *)
Theorem C37_transpose : forall m w h, (0 < w)%Z -> (0 < h)%Z -> zlen m = (w * h)%Z ->
  exists t, transpose (Mat m w h) = Ok (Mat t h w) /\ zlen t = (h * w)%Z /\
    (forall i j, (0 <= i < w)%Z -> (0 <= j < h)%Z -> entry h t i j = entry w m j i) /\
    transpose (Mat t h w) = Ok (Mat m w h).
Proof. exact transpose_thm. Qed.
Print Assumptions C37_transpose.

Theorem C37_transpose_any_split : forall m out w h cut fuel, (0 < w)%Z -> (0 < h)%Z ->
  zlen m = (w * h)%Z -> zlen out = (h * w)%Z -> (1 <= cut)%Z -> (w + h < Z.of_nat fuel)%Z ->
  exists t, rec_transpose fuel cut m out w h 0 0 w h 0 0 = Ok t /\ zlen t = (h * w)%Z /\
    forall i j, (0 <= i < w)%Z -> (0 <= j < h)%Z -> entry h t i j = entry w m j i.
Proof. exact transpose_split. Qed.
Print Assumptions C37_transpose_any_split.

Example C37_example : rec_transpose 6 1 [1; 2; 3; 4; 5; 6] [0; 0; 0; 0; 0; 0] 3 2 0 0 3 2 0 0 = Ok [1; 4; 2; 5; 3; 6].
Proof. reflexivity. Qed.

(** C38 *)
Theorem C38_mult_vec : forall a w h v out, (0 < w)%Z -> (0 < h)%Z -> zlen a = (w * h)%Z -> zlen v = w -> zlen out = h ->
  exists u, mult_vec (Mat a w h) v out = Ok u /\ zlen u = h /\
    forall i, (0 <= i < h)%Z -> coord u i = mat_vec w (entry w a) (coord v) i.
Proof. exact mult_vec_ok. Qed.
Print Assumptions C38_mult_vec.

Theorem C38_vec_mult : forall a w h v out, (0 < w)%Z -> (0 < h)%Z -> zlen a = (w * h)%Z -> zlen v = h -> zlen out = w ->
  exists u, vec_mult v (Mat a w h) out = Ok u /\ zlen u = w /\
    forall j, (0 <= j < w)%Z -> coord u j = sum 0 h (fun i => coord v i * entry w a i j).
Proof. exact vec_mult_ok. Qed.
Print Assumptions C38_vec_mult.

Example C38_example : (exists u, mult_vec (Mat [1; 2; 3; 4; 5; 6] 3 2) [1; 0; -1] [9; 9] = Ok u /\ coord u 1 = -2) /\
  (exists u, vec_mult [1; -1] (Mat [1; 2; 3; 4; 5; 6] 3 2) [9; 9; 9] = Ok u /\ coord u 2 = -3).
Proof.
  split; eexists; (split; [evalL; reflexivity|]); cbv -[Rplus Rminus Rmult Rdiv Rinv Ropp IZR]; lra.
Qed.

(** C39.  [row i] is the original number of the row in place i after the recorded
    exchanges; L and U are the two triangles of the stored array; entries of L
    are bounded by the ratio of the row maxima (implicit scaling). *)
Theorem C39_lu : forall m n, (0 < n)%Z -> zlen m = (n * n)%Z -> nonsingular n (entry n m) ->
  exists f pivot d, lu (Mat m n n) = Ok (LUF (Mat f n n) pivot d) /\ zlen f = (n * n)%Z /\ zlen pivot = n /\
    let p := fun l => nth (Z.to_nat l) pivot 0%Z in
    let row := order p (Z.to_nat n) in
    let F := entry n f in
    (forall l, (0 <= l < n)%Z -> (l <= p l < n)%Z) /\
    (forall i j, (0 <= i < n)%Z -> (0 <= j < n)%Z -> entry n m (row i) j = mat_mul n (lower F) (upper F) i j) /\
    (forall l, (0 <= l < n)%Z -> F l l <> 0) /\
    (forall i l, (0 <= l < i)%Z -> (i < n)%Z ->
       Rabs (F i l) * row_max n (entry n m) (row l) <= row_max n (entry n m) (row i)) /\
    d = exchange_sign p (Z.to_nat n).
Proof. exact lu_thm. Qed.
Print Assumptions C39_lu.

Theorem C39_lu_panics : forall m n, (0 < n)%Z -> zlen m = (n * n)%Z ->
  (lu (Mat m n n) = Panic <-> exists i, (0 <= i < n)%Z /\ forall j, (0 <= j < n)%Z -> entry n m i j = 0) /\
  (lu (Mat m n n) <> Panic -> exists luf, lu (Mat m n n) = Ok luf).
Proof. exact lu_panic_thm. Qed.
Print Assumptions C39_lu_panics.

Example C39_example : nonsingular 2 (entry 2 [0; 1; 1; 0]) /\ nonsingular 2 (entry 2 [2; 1; 1; 3]) /\
  (exists luf, lu (Mat [0; 1; 1; 0] 2 2) = Ok luf /\ lu_pivot luf = [1%Z; 1%Z] /\ lu_d luf = -1).
Proof.
  split; [apply nonsingular2; lra|]. split; [apply nonsingular2; lra|].
  eexists. split; [evalL; reflexivity|]. cbn [lu_pivot lu_d]. split; [reflexivity|lra].
Qed.

(** C40: false of the code for singular matrices. *)
Theorem C40_determinant_refuted : determinant (Mat [1; 1; 1; 1] 2 2) = Ok (-1) /\ det 2 (entry 2 [1; 1; 1; 1]) = 0 /\
  forall i, (0 <= i < 2)%Z -> exists j, (0 <= j < 2)%Z /\ entry 2 [1; 1; 1; 1] i j <> 0.
Proof. exact det_bad. Qed.
Print Assumptions C40_determinant_refuted.

(** A column of zeros counts as 10^-20. *)
Theorem C40_tiny_refuted : determinant (Mat [0; 1; 0; 1] 2 2) = Ok (1 / IZR (10 ^ 20)) /\ det 2 (entry 2 [0; 1; 0; 1]) = 0.
Proof. exact tiny_bad. Qed.
Print Assumptions C40_tiny_refuted.

(** Missing: singular matrices (refuted above). *)
Theorem C40_determinant_partial : forall m n, (0 < n)%Z -> zlen m = (n * n)%Z -> nonsingular n (entry n m) ->
  determinant (Mat m n n) = Ok (det (Z.to_nat n) (entry n m)) /\ det (Z.to_nat n) (entry n m) <> 0.
Proof. exact determinant_thm. Qed.
Print Assumptions C40_determinant_partial.

Example C40_example : nonsingular 2 (entry 2 [2; 1; 1; 3]) /\ det (Z.to_nat 2) (entry 2 [2; 1; 1; 3]) = 5 /\
  nonsingular 2 (entry 2 [0; 1; 1; 0]) /\ det (Z.to_nat 2) (entry 2 [0; 1; 1; 0]) = -1.
Proof.
  split; [apply nonsingular2; lra|]. split; [cbv -[Rplus Rminus Rmult Rdiv Rinv Ropp IZR]; lra|].
  split; [apply nonsingular2; lra|]. cbv -[Rplus Rminus Rmult Rdiv Rinv Ropp IZR]; lra.
Qed.

(** C41 *)
Theorem C41_solve_no_exchange : forall m n luf b, (0 < n)%Z -> zlen m = (n * n)%Z -> nonsingular n (entry n m) -> zlen b = n ->
  lu (Mat m n n) = Ok luf -> (forall l, (0 <= l < n)%Z -> nth (Z.to_nat l) (lu_pivot luf) 0%Z = l) ->
  exists x, solve_vector (Mat m n n) b = Ok x /\ zlen x = n /\
    forall i, (0 <= i < n)%Z -> mat_vec n (entry n m) (coord x) i = coord b i.
Proof. exact solve_thm. Qed.
Print Assumptions C41_solve_no_exchange.

Example C41_example : nonsingular 2 (entry 2 [2; 1; 1; 3]) /\
  exists luf, lu (Mat [2; 1; 1; 3] 2 2) = Ok luf /\ forall l, (0 <= l < 2)%Z -> nth (Z.to_nat l) (lu_pivot luf) 0%Z = l.
Proof.
  split; [apply nonsingular2; lra|]. destruct lu_no_exchange as [luf [E P]]. exists luf. split; [exact E|].
  intros l Hl. rewrite P. assert (l = 0 \/ l = 1)%Z as [-> | ->] by lia; reflexivity.
Qed.

(** C42: false of the code as soon as rows are exchanged. *)
Theorem C42_solve_refuted : nonsingular 2 (entry 2 [0; 1; 1; 0]) /\
  exists x, solve_vector (Mat [0; 1; 1; 0] 2 2) [1; 2] = Ok x /\
    mat_vec 2 (entry 2 [0; 1; 1; 0]) (coord x) 1 <> coord [1; 2] 1.
Proof. exact solve_bad. Qed.
Print Assumptions C42_solve_refuted.

(** What is returned for every non-singular matrix: the solution for the right
    hand side whose entry [row i] is entry i of the scattered b.  Missing: that
    this is b itself, which holds without exchanges (C41). *)
Theorem C42_solve_partial : forall m n b, (0 < n)%Z -> zlen m = (n * n)%Z -> nonsingular n (entry n m) -> zlen b = n ->
  exists luf x, lu (Mat m n n) = Ok luf /\ solve_vector (Mat m n n) b = Ok x /\ zlen x = n /\
    let p := fun l => nth (Z.to_nat l) (lu_pivot luf) 0%Z in
    forall i, (0 <= i < n)%Z -> mat_vec n (entry n m) (coord x) (order p (Z.to_nat n) i) =
      scatter p (coord b) (fun _ => 0) (Z.to_nat n) i.
Proof. exact solve_exact. Qed.
Print Assumptions C42_solve_partial.

Example C42_example : let p := fun l => nth (Z.to_nat l) [1%Z; 1%Z] 0%Z in
  scatter p (coord [1; 2]) (fun _ => 0) 2 0 = 0 /\ scatter p (coord [1; 2]) (fun _ => 0) 2 1 = 2 /\ order p 2 0 = 1%Z.
Proof. cbv zeta. split; [reflexivity|]. split; reflexivity. Qed.

(** C43: false of the code: the result is the zero matrix whatever b is. *)
Theorem C43_solve_matrix_refuted : forall m n b, (0 < n)%Z -> zlen m = (n * n)%Z -> nonsingular n (entry n m) ->
  m_w b = n -> m_h b = n ->
  exists x, solve_matrix (Mat m n n) b = Ok (Mat x n n) /\ zlen x = (n * n)%Z /\
    forall i j, (0 <= i < n)%Z -> (0 <= j < n)%Z -> entry n x i j = 0.
Proof. exact solve_matrix_thm. Qed.
Print Assumptions C43_solve_matrix_refuted.

(** The method on factors, called with the same matrix as right hand side and
    destination and without exchanges, is right. *)
Theorem C43_solve_matrix_in_place_partial : forall m n luf b, (0 < n)%Z -> zlen m = (n * n)%Z ->
  nonsingular n (entry n m) -> zlen b = (n * n)%Z ->
  lu (Mat m n n) = Ok luf -> (forall l, (0 <= l < n)%Z -> nth (Z.to_nat l) (lu_pivot luf) 0%Z = l) ->
  exists x, lu_solve_matrix luf (Mat b n n) (Mat b n n) = Ok (Mat x n n) /\ zlen x = (n * n)%Z /\
    forall i j, (0 <= i < n)%Z -> (0 <= j < n)%Z -> mat_mul n (entry n m) (entry n x) i j = entry n b i j.
Proof. exact solve_in_place_thm. Qed.
Print Assumptions C43_solve_matrix_in_place_partial.

Example C43_example : nonsingular 2 (entry 2 [2; 1; 1; 3]) /\ @zlen R [1; 2; 3; 4] = (2 * 2)%Z /\
  exists luf, lu (Mat [2; 1; 1; 3] 2 2) = Ok luf /\ forall l, (0 <= l < 2)%Z -> nth (Z.to_nat l) (lu_pivot luf) 0%Z = l.
Proof. split; [apply nonsingular2; lra|]. split; [reflexivity|]. exact (proj2 C41_example). Qed.

(** C44 *)
Theorem C44_invert : forall m n luf, (0 < n)%Z -> zlen m = (n * n)%Z -> nonsingular n (entry n m) ->
  lu (Mat m n n) = Ok luf -> (forall l, (0 <= l < n)%Z -> nth (Z.to_nat l) (lu_pivot luf) 0%Z = l) ->
  exists x, invert (Mat m n n) = Ok (Mat x n n) /\ zlen x = (n * n)%Z /\
    forall i j, (0 <= i < n)%Z -> (0 <= j < n)%Z -> mat_mul n (entry n m) (entry n x) i j = identity i j.
Proof. exact invert_thm. Qed.
Print Assumptions C44_invert.

Example C44_example : nonsingular 2 (entry 2 [2; 1; 1; 3]) /\
  exists luf, lu (Mat [2; 1; 1; 3] 2 2) = Ok luf /\ forall l, (0 <= l < 2)%Z -> nth (Z.to_nat l) (lu_pivot luf) 0%Z = l.
Proof. exact C41_example. Qed.

(** C182: sizes that do not fit are refused, in any arithmetic. *)
Theorem C182_sizes : forall {F} {NF : Num F},
  (forall (vals : list F) w h, new_matrix vals w h = Panic <-> ~ (0 < w /\ 0 < h /\ zlen vals = w * h)%Z) /\
  (forall a b out : matrix F, m_w a <> m_h b -> mult_at a b out = Panic /\ mult a b = Panic) /\
  (forall (m : matrix F) v out, m_h m <> zlen out \/ m_w m <> zlen v -> mult_vec m v out = Panic) /\
  (forall (m : matrix F) v out, m_h m <> zlen v \/ m_w m <> zlen out -> vec_mult v m out = Panic) /\
  (forall m : matrix F, m_w m <> m_h m -> lu m = Panic) /\
  (forall l (bs xs : list F), m_w (lu_m l) <> zlen bs \/ m_w (lu_m l) <> zlen xs -> lu_solve_vector l bs xs = Panic) /\
  (forall l (b x : matrix F), m_w b <> m_h b \/ m_w x <> m_h x \/ m_w (lu_m l) <> m_w b \/ m_w (lu_m l) <> m_w x -> lu_solve_matrix l b x = Panic) /\
  (forall l (out : matrix F), m_w out <> m_h out \/ m_w (lu_m l) <> m_w out -> lu_invert_at l out = Panic).
Proof. exact @sizes. Qed.
Print Assumptions C182_sizes.

Example C182_example : new_matrix [1; 2; 3; 4; 5; 6]%R 3 2 = Ok (Mat [1; 2; 3; 4; 5; 6] 3 2) /\ m_w (Mat [1; 2; 3; 4; 5; 6]%R 3 2) <> 2%Z.
Proof. split; [reflexivity|discriminate]. Qed.
