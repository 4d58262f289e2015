(** The statements about math/mat in the form used in Props. *)
From Coq Require Import ZArith List Lia Lra Bool Reals Psatz.
From Coq Require Import ZifyBool ZifyNat.
From Flocq Require Import Core.Raux.
From Verif Require Import Base.Res Base.ResFacts Base.Num Model.Mat Spec.Matrix Proof.SumP Proof.InterpP Proof.MatP Proof.LUP Proof.DetP Proof.LUS.
Import ListNotations.
Open Scope R_scope.

Lemma mult_shape a b n w h : (0 < n)%Z -> (0 < w)%Z -> (0 < h)%Z -> zlen a = (n * h)%Z -> zlen b = (w * n)%Z ->
  w = n \/ h = 1%Z ->
  exists c, mult (Mat a n h) (Mat b w n) = Ok (Mat c w h) /\ zlen c = (w * h)%Z /\
    forall i j, (0 <= i < h)%Z -> (0 <= j < w)%Z -> entry w c i j = mat_mul n (entry n a) (entry w b) i j.
Proof. intros Hn Hw Hh La Lb C. destruct (mult_eq a b n w h Hn Hw Hh La Lb C) as [c [E [L M]]]. exists c. split; [auto|]. split; [auto|exact M]. Qed.

Lemma mult_square a b n h : (0 < n)%Z -> (0 < h)%Z -> zlen a = (n * h)%Z -> zlen b = (n * n)%Z ->
  exists c, mult (Mat a n h) (Mat b n n) = Ok (Mat c n h) /\ zlen c = (n * h)%Z /\
    forall i j, (0 <= i < h)%Z -> (0 <= j < n)%Z -> entry n c i j = mat_mul n (entry n a) (entry n b) i j.
Proof. intros. apply mult_shape; auto. Qed.

Lemma transpose_thm m w h : (0 < w)%Z -> (0 < h)%Z -> zlen m = (w * h)%Z ->
  exists t, transpose (Mat m w h) = Ok (Mat t h w) /\ zlen t = (h * w)%Z /\
    (forall i j, (0 <= i < w)%Z -> (0 <= j < h)%Z -> entry h t i j = entry w m j i) /\
    transpose (Mat t h w) = Ok (Mat m w h).
Proof.
  intros W H L. destruct (transpose_ok m w h W H L) as [t [E [Lt T]]]. exists t. split; [auto|]. split; [auto|].
  split; [exact T|]. pose proof (transpose_twice m w h W H L) as TT. rewrite E in TT. exact TT.
Qed.

Lemma transpose_split m out w h cut fuel : (0 < w)%Z -> (0 < h)%Z -> zlen m = (w * h)%Z -> zlen out = (h * w)%Z ->
  (1 <= cut)%Z -> (w + h < Z.of_nat fuel)%Z ->
  exists t, rec_transpose fuel cut m out w h 0 0 w h 0 0 = Ok t /\ zlen t = (h * w)%Z /\
    forall i j, (0 <= i < w)%Z -> (0 <= j < h)%Z -> entry h t i j = entry w m j i.
Proof.
  intros W H L Lo HC HF.
  destruct (rec_transpose_ok m w h L cut HC fuel out _ 0 0 w h (mat_is_entry h w out Lo)) as [t [E [Lt I]]]; try lia.
  exists t. split; [auto|]. split; [auto|]. intros i j Hi Hj. change (zn 0 t (i * h + j)%Z = entry w m j i). rewrite I by auto.
  unfold block, in_rect. destruct (Z.leb_spec 0 i), (Z.ltb_spec i (0 + w)), (Z.leb_spec 0 j), (Z.ltb_spec j (0 + h));
    cbn [andb]; try lia; auto.
Qed.

Lemma lu_thm m n : (0 < n)%Z -> zlen m = (n * n)%Z -> nonsingular n (entry n m) ->
  exists f pivot d, lu (Mat m n n) = Ok (LUF (Mat f n n) pivot d) /\ zlen f = (n * n)%Z /\ zlen pivot = n /\
    let p := fun l => nth (Z.to_nat l) pivot 0%Z in
    let row := order p (Z.to_nat n) in
    let F := entry n f in
    (forall l, (0 <= l < n)%Z -> (l <= p l < n)%Z) /\
    (forall i j, (0 <= i < n)%Z -> (0 <= j < n)%Z -> entry n m (row i) j = mat_mul n (lower F) (upper F) i j) /\
    (forall l, (0 <= l < n)%Z -> F l l <> 0) /\
    (forall i l, (0 <= l < i)%Z -> (i < n)%Z ->
       Rabs (F i l) * row_max n (entry n m) (row l) <= row_max n (entry n m) (row i)) /\
    d = exchange_sign p (Z.to_nat n).
Proof.
  intros Hn L NS. destruct (lu_ok n Hn m L NS) as [[[f w h] pivot d] [F [E O]]].
  pose proof (lo_w _ _ _ _ O) as EW. pose proof (lo_h _ _ _ _ O) as EH. cbn [lu_m m_w m_h] in EW, EH. subst w h.
  pose proof (lo_vals _ _ _ _ O) as [Lf MF]. cbn [lu_m m_vals] in *.
  exists f, pivot, d. split; [auto|]. split; [auto|]. split; [apply (lo_len _ _ _ _ O)|]. cbv zeta.
  split; [apply (lo_piv _ _ _ _ O)|]. split; [|split; [|split]].
  - intros i j Hi Hj. rewrite (lo_dec _ _ _ _ O) by auto. apply sum_ext. intros l Hl.
    assert (forall i j, (0 <= i < n)%Z -> (0 <= j < n)%Z -> entry n f i j = F i j) as EF by exact MF.
    unfold lower, upper. rewrite !EF by lia. reflexivity.
  - intros l Hl. change (zn 0 f (l * n + l)%Z <> 0). rewrite MF by lia. apply (lo_nz _ _ _ _ O); auto.
  - intros i l Hl Hi. change (entry n f i l) with (zn 0 f (i * n + l)%Z). rewrite MF by lia.
    apply (lo_bound _ _ _ _ O); auto.
  - apply (lo_sign _ _ _ _ O).
Qed.

Lemma lu_panic_thm m n : (0 < n)%Z -> zlen m = (n * n)%Z ->
  (lu (Mat m n n) = Panic <-> exists i, (0 <= i < n)%Z /\ forall j, (0 <= j < n)%Z -> entry n m i j = 0) /\
  (lu (Mat m n n) <> Panic -> exists luf, lu (Mat m n n) = Ok luf).
Proof.
  intros Hn L.
  assert ((forall i, (0 <= i < n)%Z -> exists j, (0 <= j < n)%Z /\ entry n m i j <> 0) \/
    exists i, (0 <= i < n)%Z /\ forall j, (0 <= j < n)%Z -> entry n m i j = 0) as [A|A].
  { destruct (find_nonzero (fun i => if Req_bool (row_max n (entry n m) i) 0 then 1 else 0) (Z.to_nat n)) as [A|[i [Hi A]]].
    - left. intros i Hi. specialize (A i ltac:(lia)). cbv beta in A.
      destruct (find_nonzero (entry n m i) (Z.to_nat n)) as [B|[j [Hj B]]]; [|exists j; split; [lia|auto]].
      destruct (Req_bool_spec (row_max n (entry n m) i) 0) as [C|C]; [lra|]. exfalso. apply C.
      apply row_max_zero; auto. intros; apply B; lia.
    - right. exists i. split; [lia|]. destruct (Req_bool_spec (row_max n (entry n m) i) 0) as [C|C]; [|lra].
      now apply (row_max_zero n (entry n m) i Hn). }
  - destruct (lu_total n Hn m L A) as [luf E]. rewrite E. split; [|eauto]. split; [discriminate|].
    intros [i [Hi B]]. destruct (A i Hi) as [j [Hj N]]. exfalso. auto.
  - destruct A as [i [Hi A]]. rewrite (lu_zero_row n Hn m i L Hi A). split; [|congruence]. split; eauto.
Qed.

Lemma determinant_thm m n : (0 < n)%Z -> zlen m = (n * n)%Z -> nonsingular n (entry n m) ->
  determinant (Mat m n n) = Ok (det (Z.to_nat n) (entry n m)) /\ det (Z.to_nat n) (entry n m) <> 0.
Proof. intros. apply determinant_ok; auto. Qed.

Lemma lu_of_unique m n luf : (0 < n)%Z -> zlen m = (n * n)%Z -> nonsingular n (entry n m) -> lu (Mat m n n) = Ok luf ->
  exists f, lu_of n (entry n m) luf f.
Proof. intros Hn L NS E. destruct (lu_ok n Hn m L NS) as [luf' [f [E' O]]]. rewrite E in E'. injection E' as <-. eauto. Qed.

Lemma solve_thm m n luf b : (0 < n)%Z -> zlen m = (n * n)%Z -> nonsingular n (entry n m) -> zlen b = n ->
  lu (Mat m n n) = Ok luf -> (forall l, (0 <= l < n)%Z -> nth (Z.to_nat l) (lu_pivot luf) 0%Z = l) ->
  exists x, solve_vector (Mat m n n) b = Ok x /\ zlen x = n /\
    forall i, (0 <= i < n)%Z -> mat_vec n (entry n m) (coord x) i = coord b i.
Proof.
  intros Hn L NS Lb E ID. destruct (lu_of_unique m n luf Hn L NS E) as [f O].
  unfold solve_vector. destruct (zeros_ok (zlen b) ltac:(apply zlen_nonneg)) as [z [-> [Lz _]]]. cbn [bind]. rewrite E. cbn [bind].
  exact (solve_id n Hn (entry n m) luf f b z O Lb ltac:(lia) ID).
Qed.

Lemma solve_exact m n b : (0 < n)%Z -> zlen m = (n * n)%Z -> nonsingular n (entry n m) -> zlen b = n ->
  exists luf x, lu (Mat m n n) = Ok luf /\ solve_vector (Mat m n n) b = Ok x /\ zlen x = n /\
    let p := fun l => nth (Z.to_nat l) (lu_pivot luf) 0%Z in
    forall i, (0 <= i < n)%Z -> mat_vec n (entry n m) (coord x) (order p (Z.to_nat n) i) =
      scatter p (coord b) (fun _ => 0) (Z.to_nat n) i.
Proof.
  intros Hn L NS Lb. destruct (lu_ok n Hn m L NS) as [luf [f [E O]]].
  unfold solve_vector. destruct (zeros_ok (zlen b) ltac:(apply zlen_nonneg)) as [z [-> [Lz EZ]]]. cbn [bind]. rewrite E. cbn [bind].
  destruct (solve_ok n Hn (entry n m) luf f b z O Lb ltac:(lia)) as [x [E2 [Lx P]]].
  exists luf, x. split; [auto|]. split; [auto|]. split; [auto|]. cbv zeta. intros i Hi.
  change (mat_vec n (entry n m) (coord x)) with (mat_vec n (entry n m) (zn 0 x)).
  etransitivity; [apply (P i Hi)|].
  assert (forall k, scatter (zn 0%Z (lu_pivot luf)) (zn 0 b) (zn 0 z) k i =
    scatter (fun l => nth (Z.to_nat l) (lu_pivot luf) 0%Z) (coord b) (fun _ => 0) k i) as K; [|apply K].
  induction k as [|k IH]; cbn [scatter]; [rewrite EZ; apply nth_repeat|]. rewrite IH. reflexivity.
Qed.

Lemma invert_thm m n luf : (0 < n)%Z -> zlen m = (n * n)%Z -> nonsingular n (entry n m) ->
  lu (Mat m n n) = Ok luf -> (forall l, (0 <= l < n)%Z -> nth (Z.to_nat l) (lu_pivot luf) 0%Z = l) ->
  exists x, invert (Mat m n n) = Ok (Mat x n n) /\ zlen x = (n * n)%Z /\
    forall i j, (0 <= i < n)%Z -> (0 <= j < n)%Z -> mat_mul n (entry n m) (entry n x) i j = identity i j.
Proof. intros Hn L NS E ID. destruct (lu_of_unique m n luf Hn L NS E) as [f O]. eapply invert_ok; eauto. Qed.

Lemma solve_matrix_thm m n b : (0 < n)%Z -> zlen m = (n * n)%Z -> nonsingular n (entry n m) -> m_w b = n -> m_h b = n ->
  exists x, solve_matrix (Mat m n n) b = Ok (Mat x n n) /\ zlen x = (n * n)%Z /\
    forall i j, (0 <= i < n)%Z -> (0 <= j < n)%Z -> entry n x i j = 0.
Proof. intros. apply solve_matrix_zero; auto. Qed.

Lemma solve_in_place_thm m n luf b : (0 < n)%Z -> zlen m = (n * n)%Z -> nonsingular n (entry n m) -> zlen b = (n * n)%Z ->
  lu (Mat m n n) = Ok luf -> (forall l, (0 <= l < n)%Z -> nth (Z.to_nat l) (lu_pivot luf) 0%Z = l) ->
  exists x, lu_solve_matrix luf (Mat b n n) (Mat b n n) = Ok (Mat x n n) /\ zlen x = (n * n)%Z /\
    forall i j, (0 <= i < n)%Z -> (0 <= j < n)%Z -> mat_mul n (entry n m) (entry n x) i j = entry n b i j.
Proof. intros Hn L NS Lb E ID. destruct (lu_of_unique m n luf Hn L NS E) as [f O]. eapply solve_matrix_in_place; eauto. Qed.

(** ** Evaluation on explicit matrices *)
Ltac evalR := repeat first
  [ progress (rewrite ?Rabs_R0, ?Rabs_R1, ?Rabs_Ropp)
  | match goal with |- context [Rabs ?x] => first [rewrite (Rabs_pos_eq x) by lra | rewrite (Rabs_left x) by lra] end
  | match goal with |- context [Rlt_bool ?a ?b] =>
      first [rewrite (Rlt_bool_true a b) by lra | rewrite (Rlt_bool_false a b) by lra] end
  | match goal with |- context [Req_bool ?a ?b] =>
      first [rewrite (Req_bool_true a b) by lra | rewrite (Req_bool_false a b) by lra] end ].

Lemma det_bad : determinant (Mat [1; 1; 1; 1] 2 2) = Ok (-1) /\ det 2 (entry 2 [1; 1; 1; 1]) = 0 /\
  forall i, (0 <= i < 2)%Z -> exists j, (0 <= j < 2)%Z /\ entry 2 [1; 1; 1; 1] i j <> 0.
Proof.
  split; [|split].
  - cbv -[Rlt_bool Req_bool Rabs Rplus Rminus Rmult Rdiv Rinv Ropp IZR]. evalR. f_equal. lra.
  - cbv -[Rplus Rminus Rmult Rdiv Rinv Ropp IZR]. lra.
  - intros i Hi. exists 0%Z. split; [lia|]. assert (i = 0 \/ i = 1)%Z as [-> | ->] by lia; cbv -[IZR]; lra.
Qed.

Ltac evalL := cbv -[Rlt_bool Req_bool Rabs Rplus Rminus Rmult Rdiv Rinv Ropp IZR]; evalR.

Lemma nonsingular2 a b c d : a * d - b * c <> 0 -> nonsingular 2 (entry 2 [a; b; c; d]).
Proof.
  intros D x H. pose proof (H 0%Z ltac:(lia)) as E0. pose proof (H 1%Z ltac:(lia)) as E1.
  cbv [mat_vec sum sum_n entry Z.sub Z.to_nat Z.of_nat Z.add Z.mul Pos.mul Pos.add Pos.succ Z.opp Pos.to_nat Pos.iter_op Nat.add nth Pos.of_succ_nat Z.pos_sub Pos.pred_double Z.double Z.succ_double Z.pred_double] in E0, E1.
  assert (x 0%Z = 0 /\ x 1%Z = 0) as [X0 X1].
  { split; apply Rmult_eq_reg_l with (a * d - b * c); auto.
    - transitivity (d * (0 + a * x 0%Z + b * x 1%Z) - b * (0 + c * x 0%Z + d * x 1%Z)); [ring|rewrite E0, E1; ring].
    - transitivity (a * (0 + c * x 0%Z + d * x 1%Z) - c * (0 + a * x 0%Z + b * x 1%Z)); [ring|rewrite E0, E1; ring]. }
  intros j Hj. assert (j = 0 \/ j = 1)%Z as [-> | ->] by lia; auto.
Qed.

Lemma lu_no_exchange : exists luf, lu (Mat [2; 1; 1; 3] 2 2) = Ok luf /\ lu_pivot luf = [0%Z; 1%Z].
Proof. eexists. split; [evalL; reflexivity|]. cbv. reflexivity. Qed.

Lemma solve_bad : nonsingular 2 (entry 2 [0; 1; 1; 0]) /\
  exists x, solve_vector (Mat [0; 1; 1; 0] 2 2) [1; 2] = Ok x /\ mat_vec 2 (entry 2 [0; 1; 1; 0]) (coord x) 1 <> coord [1; 2] 1.
Proof.
  split; [apply nonsingular2; lra|]. eexists. split; [evalL; reflexivity|].
  cbv -[Rplus Rminus Rmult Rdiv Rinv Ropp IZR]. lra.
Qed.

(** A product with a wider right hand side: no panic, wrong entry. *)
Lemma mult_wide_bad : exists c, mult (Mat [1; 2] 1 2) (Mat [1; 10; 100] 3 1) = Ok (Mat c 3 2) /\
  entry 3 c 0 1 <> mat_mul 1 (entry 1 [1; 2]) (entry 3 [1; 10; 100]) 0 1.
Proof.
  eexists. split; [evalL; reflexivity|]. cbv -[Rplus Rminus Rmult Rdiv Rinv Ropp IZR]. lra.
Qed.
