(** Order facts about IEEE comparison, including NaN and infinities. *)
From Coq Require Import ZArith Reals Bool Lia Lra.
From Flocq Require Import Core BinarySingleNaN.
From Verif Require Import Base.Num Base.IEEE.
Open Scope Z_scope.

Section Ord.
Context {p e : Z} {Hp : Prec_gt_0 p} {He : Prec_lt_emax p e}.
Notation bf := (binary_float p e).

(** -1 / 0 / 1 for minus infinity / finite / plus infinity. *)
Definition rank (x : bf) : Z :=
  match x with
  | B754_infinity true => -1
  | B754_infinity false => 1
  | _ => 0
  end.

Lemma bltb_rank (x y : bf) :
  is_nan x = false -> is_nan y = false ->
  Bltb x y = true <-> (rank x < rank y \/ (rank x = 0 /\ rank y = 0 /\ (B2R x < B2R y)%R)).
Proof.
  intros Nx Ny.
  destruct (is_finite x) eqn:Fx; [destruct (is_finite y) eqn:Fy|].
  - rewrite Bltb_correct by auto.
    assert (rank x = 0) as -> by (destruct x; simpl in *; try discriminate; auto).
    assert (rank y = 0) as -> by (destruct y; simpl in *; try discriminate; auto).
    destruct (Rlt_bool_spec (B2R x) (B2R y)); split; intros H'; auto; try discriminate.
    destruct H' as [?|(_ & _ & ?)]; [lia|lra].
  - destruct y as [|[]| |]; simpl in Fy, Ny; try discriminate;
      destruct x as [[]| | |[]]; simpl in *; try discriminate; cbn;
      split; intros H; try discriminate; auto; try lia; destruct H as [?|(? & ? & ?)]; lia.
  - destruct x as [|[]| |]; simpl in Fx, Nx; try discriminate;
      destruct y as [[]|[]| |[]]; simpl in *; try discriminate; cbn;
      split; intros H; try discriminate; auto; try lia; destruct H as [?|(? & ? & ?)]; lia.
Qed.

Lemma bltb_nan_l (x y : bf) : is_nan x = true -> Bltb x y = false.
Proof. destruct x; simpl; try discriminate. intros _. destruct y; reflexivity. Qed.
Lemma bltb_nan_r (x y : bf) : is_nan y = true -> Bltb x y = false.
Proof. destruct y; simpl; try discriminate. intros _. destruct x as [|[]| |[]]; reflexivity. Qed.

Lemma bltb_asym (x y : bf) : Bltb x y = true -> Bltb y x = false.
Proof.
  intros H. destruct (is_nan x) eqn:Nx; [rewrite bltb_nan_l in H by auto; discriminate|].
  destruct (is_nan y) eqn:Ny; [rewrite bltb_nan_r in H by auto; discriminate|].
  apply bltb_rank in H; auto. destruct (Bltb y x) eqn:E; auto.
  apply bltb_rank in E; auto.
  destruct H as [?|(? & ? & ?)], E as [?|(? & ? & ?)]; try lia; lra.
Qed.

Lemma bltb_trans (x y z : bf) :
  is_nan x = false -> is_nan y = false -> is_nan z = false ->
  Bltb y x = false -> Bltb z y = false -> Bltb z x = false.
Proof.
  intros Nx Ny Nz H1 H2. destruct (Bltb z x) eqn:E; auto. exfalso.
  apply bltb_rank in E; auto.
  assert (G1 : ~ (rank y < rank x \/ (rank y = 0 /\ rank x = 0 /\ (B2R y < B2R x)%R))).
  { intros G. apply bltb_rank in G; auto. congruence. }
  assert (G2 : ~ (rank z < rank y \/ (rank z = 0 /\ rank y = 0 /\ (B2R z < B2R y)%R))).
  { intros G. apply bltb_rank in G; auto. congruence. }
  assert (rank x <= rank y) by lia. assert (rank y <= rank z) by lia.
  destruct E as [?|(E1 & E2 & ?)]; [lia|].
  assert (Y0 : rank y = 0) by lia.
  destruct (Rlt_le_dec (B2R y) (B2R x)); [apply G1; auto|].
  destruct (Rlt_le_dec (B2R z) (B2R y)); [apply G2; auto|]. lra.
Qed.
End Ord.

(** Reals *)
Lemma rlt_asym x y : Rlt_bool x y = true -> Rlt_bool y x = false.
Proof. destruct (Rlt_bool_spec x y), (Rlt_bool_spec y x); auto; try discriminate; lra. Qed.
Lemma rlt_trans x y z : Rlt_bool y x = false -> Rlt_bool z y = false -> Rlt_bool z x = false.
Proof.
  destruct (Rlt_bool_spec y x), (Rlt_bool_spec z y), (Rlt_bool_spec z x); auto; try discriminate; lra.
Qed.
