(** profile.go: cases in which the results are wrong. *)
From Coq Require Import ZArith List Bool Lia Reals Lra ZifyBool ZifyNat.
From Flocq Require Import Core.Raux IEEE754.BinarySingleNaN.
From Verif Require Import Base.Res Base.ResFacts Base.Num Base.IEEE Model.Geom Model.GridDeriv Model.Halo Model.Profile Spec.Lines Proof.ProfileL Proof.ProfileQ.
Import ListNotations.
Open Scope Z_scope.

Definition sqrt64 : f64 -> f64 := Bsqrt mode_NE.
Definition nan64 (x : f64) : bool := is_nan x.
Definition ofZs (l : list Z) : list f64 := map nofZ l.
(** In units of 1/4. *)
Definition quarters (l : list f64) : list Z := map (fun x => ntrunc (nmul x (nofZ 4))) l.
Definition max64 : f64 := f64lit (2 ^ 53 - 1) 971.
Definition smallest64 : f64 := f64lit 1 (-1074).
Definition zcount (n : nat) : list Z := map Z.of_nat (seq 0 n).

Definition line_quarters (r : res (option (list f64 * list f64))) : option (list Z * list Z) :=
  match r with Ok (Some (a, b)) => Some (quarters a, quarters b) | _ => None end.
Definition pair_quarters (r : res (list f64 * list f64)) : option (list Z * list Z) :=
  match r with Ok (a, b) => Some (quarters a, quarters b) | _ => None end.

Lemma line_box : 
  line_quarters (extract_line sqrt64 nan64 (ofZs (zcount 120)) (V3 4 5 6) (V3 (nofZ 0) (nofZ 0) (nofZ 1)) (nofZ 1)) =
    Some ([0; 4; 8], [4 * 54 + 2; 4 * 74 + 2; 4 * 94 + 2]) /\
  line_density (vget (V3 4 5 6)) (map IZR (zcount 120)) (vget (V3 0 0 1)%R) 2 0 = 72%R /\
  extract_line sqrt64 nan64 (ofZs (zcount 32)) (V3 2 4 4) (V3 (nofZ 0) (nofZ 1) (nofZ 0)) (nofZ 1) = Ok (Some ([], [])).
Proof.
  split; [vm_compute; reflexivity|]. split; [|vm_compute; reflexivity].
  assert (N : forall k, 0 <= k < 120 -> nth (Z.to_nat k) (map IZR (zcount 120)) 0%R = IZR k).
  { intros k Hk. unfold zcount. rewrite map_map. rewrite (nth_indep _ 0%R (IZR (Z.of_nat 0))) by (rewrite map_length, seq_length; lia).
    rewrite (map_nth (fun x => IZR (Z.of_nat x))). rewrite seq_nth by lia. f_equal. lia. }
  assert (A : forall w u t i, on_line w u t i = (IZR (w i) / 2 + t * u i)%R) by reflexivity.
  unfold line_density, bilinear. cbn zeta. rewrite !A.
  change (next_axis 2) with 0. change (last_axis 2) with 1.
  change (vget (V3 0 0 1)%R 2) with 1%R. change (vget (V3 0 0 1)%R 0) with 0%R. change (vget (V3 0 0 1)%R 1) with 0%R.
  change (vget (V3 4 5 6) 2) with 6. change (vget (V3 4 5 6) 0) with 4. change (vget (V3 4 5 6) 1) with 5.
  assert (A2 : Zfloor (6 / 2 + 0 * 1) = 3%Z) by (apply Zfloor_imp; simpl; lra).
  assert (B : Zfloor (4 / 2 + 0 * 0) = 2%Z) by (apply Zfloor_imp; simpl; lra).
  assert (C : Zfloor (5 / 2 + 0 * 0) = 2%Z) by (apply Zfloor_imp; simpl; lra).
  assert (CV : forall a b, 0 <= a < 4 -> 0 <= b < 5 -> cell_value (vget (V3 4 5 6)) (map IZR (zcount 120)) (place 2 3 a b) = IZR (a + 4 * (b + 5 * 3))).
  { intros a b Ha Hb. exact (N (a + 4 * (b + 5 * 3)) ltac:(lia)). }
  rewrite A2, B, C. rewrite !CV by lia. cbn. lra.
Qed.

Lemma nan_line : exists rs rho, 
  extract_line sqrt64 nan64 (repeat (B754_nan : f64) 64) (V3 4 4 4) (V3 (nofZ 1) (nofZ 0) (nofZ 0)) (nofZ 1) = Ok (Some (rs, [rho])) /\ is_nan rho = true.
Proof.
  assert (E : match extract_line sqrt64 nan64 (repeat (B754_nan : f64) 64) (V3 4 4 4) (V3 (nofZ 1) (nofZ 0) (nofZ 0)) (nofZ 1) with
    | Ok (Some (rs, [rho])) => is_nan rho | _ => false end = true) by (vm_compute; reflexivity).
  destruct (extract_line _ _ _ _ _ _) as [[[rs [|rho [|? ?]]]|]| | |]; try discriminate. exists rs, rho. split; [reflexivity|exact E].
Qed.

Lemma unit_nan : forall axis, (axis = 3 \/ axis = 0 \/ axis = 1 \/ axis = 2) ->
  let u := random_unit sqrt64 (f64lit 1 (-1)) (f64lit 1 (-1)) (f64lit 1 (-1)) axis in
  is_nan (v0 u) = true /\ is_nan (v1 u) = true /\ is_nan (v2 u) = true.
Proof. intros axis [-> | [-> | [-> | -> ]]]; vm_compute; repeat split. Qed.

Lemma remove_wraps :
  sphere_bounds1 (f64lit 19 (-1)) (f64lit 1 0) (f64lit 1 0) (f64lit 10 0) = (8, 3) /\
  covered 10 0 8 (8 + 3) 0 /\ (forall c, 0 < c < 4 -> ~ covered 10 0 8 (8 + 3) c) /\
  (exists g, remove_subhalo (CB (V3 0 0 0) (V3 4 4 4)) (CB (V3 8 0 0) (V3 3 1 1)) 7 10 (repeat 1 64) = Ok g /\
     zn 0 g 0 = 1 /\ zn 0 g (2 + 4 * (2 + 4 * 0)) = 7) /\
  remove_subhalo (CB (V3 0 0 0) (V3 4 4 4)) (CB (V3 0 0 8) (V3 1 1 3)) 7 10 (repeat 1 64) = Panic.
Proof.
  split; [vm_compute; reflexivity|]. split; [exists 10, 1; lia|]. split; [intros c Hc (x & k & Hx & E); lia|]. split.
  - eexists. split; [vm_compute; reflexivity|]. split; reflexivity.
  - vm_compute. reflexivity.
Qed.

Local Notation bmean := (binned_mean nan64 (fun x => x) (fun x => x) max64 smallest64).
Lemma binned_wrong :
  pair_quarters (bmean (ofZs [-2; -1]) (ofZs [1; 3]) 2 (BMO None B754_nan B754_nan false)) = Some ([-6; -2], [4; 12]) /\
  pair_quarters (bmean (ofZs [0; 1; 5]) (ofZs [1; 3; 8]) 1 (BMO None B754_nan (nofZ 1) false)) = Some ([10], [16]) /\
  bmean (ofZs [0; 1; 5]) (ofZs [1; 3; 8]) 1 (BMO None (nofZ 0) B754_nan false) = Panic /\
  bmean (ofZs [1; 1]) (ofZs [1; 3]) 2 (BMO None B754_nan B754_nan false) = Panic.
Proof. repeat split; vm_compute; reflexivity. Qed.

Lemma never_rejected {D} {ND : Num D} (fsqrt : D -> D) (isnan : D -> bool) (grid : list D) (span : vec3 Z) (cw : D) :
  0 <= v0 span -> 0 <= v1 span -> 0 <= v2 span -> zlen grid = v0 span * v1 span * v2 span ->
  (forall u, exists rs rhos, extract_line fsqrt isnan grid span u cw = Ok (Some (rs, rhos))) /\
  forall n units, 0 <= n -> exists lines, line_profiles fsqrt isnan (Z.to_nat n) grid span n cw units 0 [] = Ok (lines, n) /\
    zlen lines = n /\ forall k def, 0 <= k < n -> fst (fst (zn def lines k)) = units k.
Proof.
  intros H0 H1 H2 HL. split.
  - intros u. destruct (extract_spec fsqrt isnan cw grid span u cw H0 H1 H2 HL) as (rs & rhos & E & _). exists rs, rhos. exact E.
  - intros n units Hn. destruct (attempts_exact fsqrt isnan cw grid span cw units H0 H1 H2 HL (Z.to_nat n) [] 0) as (lines & E & L & V).
    cbn [zlen] in E. change (zlen (A := vec3 D * list D * list D) []) with 0 in E. rewrite Z2Nat.id in * by exact Hn. cbn [app Z.add] in E.
    exists lines. split; [exact E|]. split; [exact L|]. intros k def Hk. apply (V k def Hk).
Qed.
