(** Matrices whose sizes do not fit, and the replacement of a zero pivot. *)
From Coq Require Import ZArith List Lia Lra Bool Reals ZifyBool.
From Flocq Require Import Core.Raux.
From Verif Require Import Base.Res Base.ResFacts Base.Num Model.Mat Spec.Matrix Proof.MatThm.
Import ListNotations.
Open Scope Z_scope.

Section Sizes.
Context {F : Type} {NF : Num F}.
Ltac refuse := repeat match goal with |- context [negb (?a =? ?b)] => destruct (Z.eqb_spec a b); cbn [negb orb]; try reflexivity end; exfalso; lia.

Lemma new_size (vals : list F) w h : new_matrix vals w h = Panic <-> ~ (0 < w /\ 0 < h /\ zlen vals = w * h).
Proof.
  unfold new_matrix. destruct (Z.leb_spec w 0); [intuition lia|]. destruct (Z.leb_spec h 0); [intuition lia|].
  destruct (Z.eqb_spec (w * h) (zlen vals)); cbn [negb]; [|intuition lia]. split; [discriminate|]. intros H1. exfalso. apply H1. lia.
Qed.
Lemma mult_at_size (a b out : matrix F) : m_w a <> m_h b -> mult_at a b out = Panic.
Proof. intros H. unfold mult_at. refuse. Qed.
Lemma mult_size (a b : matrix F) : m_w a <> m_h b -> mult a b = Panic.
Proof.
  intros H. unfold mult, zeros. destruct (_ <? 0); [reflexivity|]. cbn [bind]. unfold new_matrix.
  destruct (_ <=? 0); [reflexivity|]. destruct (_ <=? 0); [reflexivity|]. destruct (negb _); [reflexivity|]. cbn [bind]. now apply mult_at_size.
Qed.
Lemma mult_vec_size (m : matrix F) v out : m_h m <> zlen out \/ m_w m <> zlen v -> mult_vec m v out = Panic.
Proof. intros H. unfold mult_vec. refuse. Qed.
Lemma vec_mult_size v (m : matrix F) out : m_h m <> zlen v \/ m_w m <> zlen out -> vec_mult v m out = Panic.
Proof. intros H. unfold vec_mult. refuse. Qed.
Lemma lu_size (m : matrix F) : m_w m <> m_h m -> lu m = Panic.
Proof. intros H. unfold lu. refuse. Qed.
Lemma solve_size l (bs xs : list F) : m_w (lu_m l) <> zlen bs \/ m_w (lu_m l) <> zlen xs -> lu_solve_vector l bs xs = Panic.
Proof. intros H. unfold lu_solve_vector. refuse. Qed.
Lemma solve_matrix_size l (b x : matrix F) : m_w b <> m_h b \/ m_w x <> m_h x \/ m_w (lu_m l) <> m_w b \/ m_w (lu_m l) <> m_w x ->
  lu_solve_matrix l b x = Panic.
Proof. intros H. unfold lu_solve_matrix. refuse. Qed.
Lemma invert_size l (out : matrix F) : m_w out <> m_h out \/ m_w (lu_m l) <> m_w out -> lu_invert_at l out = Panic.
Proof. intros H. unfold lu_invert_at. refuse. Qed.

Theorem sizes : 
  (forall (vals : list F) w h, new_matrix vals w h = Panic <-> ~ (0 < w /\ 0 < h /\ zlen vals = w * h)) /\
  (forall a b out : matrix F, m_w a <> m_h b -> mult_at a b out = Panic /\ mult a b = Panic) /\
  (forall (m : matrix F) v out, m_h m <> zlen out \/ m_w m <> zlen v -> mult_vec m v out = Panic) /\
  (forall (m : matrix F) v out, m_h m <> zlen v \/ m_w m <> zlen out -> vec_mult v m out = Panic) /\
  (forall m : matrix F, m_w m <> m_h m -> lu m = Panic) /\
  (forall l (bs xs : list F), m_w (lu_m l) <> zlen bs \/ m_w (lu_m l) <> zlen xs -> lu_solve_vector l bs xs = Panic) /\
  (forall l (b x : matrix F), m_w b <> m_h b \/ m_w x <> m_h x \/ m_w (lu_m l) <> m_w b \/ m_w (lu_m l) <> m_w x -> lu_solve_matrix l b x = Panic) /\
  (forall l (out : matrix F), m_w out <> m_h out \/ m_w (lu_m l) <> m_w out -> lu_invert_at l out = Panic).
Proof.
  repeat match goal with |- _ /\ _ => split end.
  - apply new_size.
  - intros a b out H. split; [now apply mult_at_size|now apply mult_size].
  - intros; now apply mult_vec_size.
  - intros; now apply vec_mult_size.
  - apply lu_size.
  - apply solve_size.
  - apply solve_matrix_size.
  - apply invert_size.
Qed.
End Sizes.

Theorem tiny_bad : determinant (Mat [0; 1; 0; 1]%R 2 2) = Ok (1 / IZR (10 ^ 20))%R /\ (det 2 (entry 2 [0; 1; 0; 1]) = 0)%R.
Proof. split; [evalL; f_equal; lra|]. cbv -[Rplus Rminus Rmult Rdiv Rinv Ropp IZR]. lra. Qed.
