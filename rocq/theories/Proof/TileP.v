From Coq Require Import ZArith List Lia Lra Bool Reals Psatz.
From Verif Require Import Base.Res Base.Num Model.Geom Spec.Geometry Spec.GeomDefs Proof.GridP Proof.GeomR.
Import ListNotations.
Open Scope R_scope.




Lemma code_tetra_cells n skip c dir A B C D : cube_room n skip c -> (0 <= dir < 6)%Z ->
  (code_tetra n skip c dir A B C D <->
   A = cadd c skip (fst (dirs_of dir)) /\ B = cadd c skip (snd (dirs_of dir)) /\
   C = cadd c skip (V3 1 1 1)%Z /\ D = c).
Proof.
  intros R H.
  assert (LC : Forall (in_lattice n) [cadd c skip (fst (dirs_of dir)); cadd c skip (snd (dirs_of dir)); cadd c skip (V3 1 1 1)%Z; c]).
  { destruct c as [[x y] z]. simpl in R.
    destruct (dirs_cases dir H) as [[_ ->]|[[_ ->]|[[_ ->]|[[_ ->]|[[_ ->]|[_ ->]]]]]];
      repeat (apply Forall_cons; [cbn [cadd in_lattice fst snd v0 v1 v2]; lia|]); apply Forall_nil. }
  unfold code_tetra. rewrite tetra_idxs_cells by auto. split.
  - intros [E F]. injection E as E1 E2 E3 E4.
    inversion LC as [|? ? L1 LC1]; subst. inversion LC1 as [|? ? L2 LC2]; subst.
    inversion LC2 as [|? ? L3 LC3]; subst. inversion LC3 as [|? ? L4 LC4]; subst.
    inversion F as [|? ? F1 G1]; subst. inversion G1 as [|? ? F2 G2]; subst.
    inversion G2 as [|? ? F3 G3]; subst. inversion G3 as [|? ? F4 G4]; subst.
    repeat split; symmetry; eapply lattice_index_inj; eauto.
  - intros (-> & -> & -> & ->). split; [reflexivity|exact LC].
Qed.

(** Ordering of the offsets that characterises each tetrahedron. *)
Definition chain (dir : Z) (a b d : R) : R * R * R :=
  match dir with
  | 0%Z => (a, b, d) | 1%Z => (a, d, b) | 2%Z => (b, a, d)
  | 3%Z => (d, a, b) | 4%Z => (b, d, a) | _ => (d, b, a)
  end.

Lemma tetra_chain n skip x y z dir : cube_room n skip (x, y, z) -> (0 <= dir < 6)%Z ->
  forall a b d,
  let '(p, q, r) := chain dir (a - IZR x) (b - IZR y) (d - IZR z) in
  (in_code_tetra n skip (x, y, z) dir (a, b, d) <-> 0 <= r /\ r <= q /\ q <= p /\ p <= IZR skip) /\
  (in_code_tetra_open n skip (x, y, z) dir (a, b, d) <-> 0 < r /\ r < q /\ q < p /\ p < IZR skip).
Proof.
  intros R H a b d.
  assert (SP : 0 < IZR skip) by (apply IZR_lt; simpl in R; lia).
  assert (EQ : forall P : cell -> cell -> cell -> cell -> Prop,
    (exists A B C D, code_tetra n skip (x, y, z) dir A B C D /\ P A B C D) <->
    P (cadd (x, y, z) skip (fst (dirs_of dir))) (cadd (x, y, z) skip (snd (dirs_of dir)))
      (cadd (x, y, z) skip (V3 1 1 1)%Z) (x, y, z)).
  { intro P. split.
    - intros (A & B & C & D & E & Q). apply code_tetra_cells in E; auto. destruct E as (-> & -> & -> & ->). exact Q.
    - intro Q. eexists _, _, _, _. split; [|exact Q]. apply code_tetra_cells; auto. }
  unfold in_code_tetra, in_code_tetra_open.
  pose proof (EQ (fun A B C D => in_tetra (a, b, d) (cell_point A) (cell_point B) (cell_point C) (cell_point D))) as EC.
  pose proof (EQ (fun A B C D => in_tetra_open (a, b, d) (cell_point A) (cell_point B) (cell_point C) (cell_point D))) as EO.
  cbv beta in EC, EO.
  clear EQ. set (s := IZR skip) in *.
  assert (DV : forall u, u / s * s = u) by (intro u; field; lra).
  assert (PD : forall u, 0 <= u -> 0 <= u / s) by (intros u U; apply Rmult_le_pos; [auto|left; now apply Rinv_0_lt_compat]).
  assert (PD' : forall u, 0 < u -> 0 < u / s) by (intros u U; apply Rmult_lt_0_compat; [auto|now apply Rinv_0_lt_compat]).
  assert (M : forall w, 0 <= w -> 0 <= w * s) by (intros w U; apply Rmult_le_pos; lra).
  assert (M' : forall w, 0 < w -> 0 < w * s) by (intros w U; apply Rmult_lt_0_compat; lra).
  destruct (dirs_cases dir H) as [[-> ED]|[[-> ED]|[[-> ED]|[[-> ED]|[[-> ED]|[-> ED]]]]]];
  rewrite ED in EC, EO; cbn [chain]; rewrite EC, EO; clear EC EO ED;
  cbn [fst snd cadd v0 v1 v2 cell_point];
  rewrite ?Z.mul_0_r, ?Z.mul_1_r, ?Z.add_0_r, ?plus_IZR; fold s;
  (split;
   [ split;
     [ intros (w1 & w2 & w3 & w4 & H1 & H2 & H3 & H4 & W & E);
       unfold combine, padd, pscale in E; rewrite trip_eq in E; destruct E as (E1 & E2 & E3);
       pose proof (M _ H1); pose proof (M _ H2); pose proof (M _ H3); pose proof (M _ H4);
       assert (W4 : w4 = 1 - w1 - w2 - w3) by lra; subst w4; nra
     | intros (K1 & K2 & K3 & K4);
       match type of K1 with 0 <= ?r => match type of K3 with ?q <= ?p =>
         exists ((p - q) / s), ((q - r) / s), (r / s), ((s - p) / s) end end;
       split; [apply PD; lra|]; split; [apply PD; lra|]; split; [apply PD; lra|]; split; [apply PD; lra|];
       split; [field; lra|];
       unfold combine, padd, pscale; rewrite trip_eq; repeat split; field; lra ]
   | split;
     [ intros (w1 & w2 & w3 & w4 & H1 & H2 & H3 & H4 & W & E);
       unfold combine, padd, pscale in E; rewrite trip_eq in E; destruct E as (E1 & E2 & E3);
       pose proof (M' _ H1); pose proof (M' _ H2); pose proof (M' _ H3); pose proof (M' _ H4);
       assert (W4 : w4 = 1 - w1 - w2 - w3) by lra; subst w4; nra
     | intros (K1 & K2 & K3 & K4);
       match type of K1 with 0 < ?r => match type of K3 with ?q < ?p =>
         exists ((p - q) / s), ((q - r) / s), (r / s), ((s - p) / s) end end;
       split; [apply PD'; lra|]; split; [apply PD'; lra|]; split; [apply PD'; lra|]; split; [apply PD'; lra|];
       split; [field; lra|];
       unfold combine, padd, pscale; rewrite trip_eq; repeat split; field; lra ] ]).
Qed.

Ltac dircase H := 
  let K := fresh in
  match type of H with (0 <= ?d < 6)%Z =>
  assert (K : (d = 0 \/ d = 1 \/ d = 2 \/ d = 3 \/ d = 4 \/ d = 5)%Z) by lia;
  destruct K as [K | [K | [K | [K | [K | K]]]]]; subst d end.

Lemma tile_cover n skip c : cube_room n skip c -> forall p,
  in_cube skip c p <-> exists dir, (0 <= dir < 6)%Z /\ in_code_tetra n skip c dir p.
Proof.
  intros R [[a b] d]. destruct c as [[x y] z].
  pose proof (fun dir H => tetra_chain n skip x y z dir R H a b d) as T.
  unfold in_cube. split.
  - intros (X & Y & Z_).
    set (e := a - IZR x) in *. set (f := b - IZR y) in *. set (g := d - IZR z) in *.
    assert (e = a - IZR x) by reflexivity. assert (f = b - IZR y) by reflexivity. assert (g = d - IZR z) by reflexivity.
    clearbody e f g.
    destruct (Rle_lt_dec e f), (Rle_lt_dec f g), (Rle_lt_dec e g);
      try lra;
      [exists 5%Z|exists 4%Z|exists 2%Z|exists 3%Z|exists 1%Z|exists 0%Z]; split; try lia;
      match goal with |- in_code_tetra _ _ _ ?k _ => apply (proj1 (T k ltac:(lia))) end; lra.
  - intros (dir & H & I). dircase H;
    match type of I with in_code_tetra _ _ _ ?k _ => apply (proj1 (T k ltac:(lia))) in I end;
    cbn [chain] in I; lra.
Qed.

Lemma tile_disjoint n skip c : cube_room n skip c -> forall p d1 d2, (0 <= d1 < 6)%Z -> (0 <= d2 < 6)%Z ->
  in_code_tetra_open n skip c d1 p -> in_code_tetra_open n skip c d2 p -> d1 = d2.
Proof.
  intros R [[a b] d] d1 d2 H1 H2 I1 I2. destruct c as [[x y] z].
  pose proof (fun dir H => tetra_chain n skip x y z dir R H a b d) as T.
  dircase H1; dircase H2; try reflexivity; exfalso;
  match type of I1 with in_code_tetra_open _ _ _ ?k _ => apply (proj2 (T k ltac:(lia))) in I1 end;
  match type of I2 with in_code_tetra_open _ _ _ ?k _ => apply (proj2 (T k ltac:(lia))) in I2 end;
  cbn [chain] in *; lra.
Qed.


Lemma tile_unique n skip c : cube_room n skip c -> forall p, in_cube skip c p -> generic c p ->
  exists! dir, (0 <= dir < 6)%Z /\ in_code_tetra n skip c dir p.
Proof.
  intros R p I G. destruct (proj1 (tile_cover n skip c R p) I) as (dir & H & IN).
  exists dir. split; [split; auto|]. intros d2 [H2 IN2].
  destruct p as [[a b] d], c as [[x y] z]. unfold generic, cell_point in G.
  pose proof (fun dir H => tetra_chain n skip x y z dir R H a b d) as T.
  dircase H; dircase H2; try reflexivity; exfalso;
  match type of IN with in_code_tetra _ _ _ ?k _ => apply (proj1 (T k ltac:(lia))) in IN end;
  match type of IN2 with in_code_tetra _ _ _ ?k _ => apply (proj1 (T k ltac:(lia))) in IN2 end;
  cbn [chain] in *; destruct G as (G1 & G2 & G3);
  first [apply G1; lra | apply G2; lra | apply G3; lra].
Qed.

Lemma tile_volume n skip c dir A B C D : cube_room n skip c -> (0 <= dir < 6)%Z ->
  code_tetra n skip c dir A B C D ->
  vol6 (cell_point A) (cell_point B) (cell_point C) (cell_point D) = IZR skip ^ 3 / 6.
Proof.
  intros R H T. apply code_tetra_cells in T; auto. destruct T as (-> & -> & -> & ->).
  destruct c as [[x y] z]. unfold vol6.
  assert (SP : 0 < IZR skip) by (apply IZR_lt; simpl in R; lia).
  assert (P3 : 0 < IZR skip ^ 3) by (apply pow_lt; auto).
  destruct (dirs_cases dir H) as [[-> ->]|[[-> ->]|[[-> ->]|[[-> ->]|[[-> ->]|[-> ->]]]]]];
  cbn [fst snd cadd v0 v1 v2 cell_point]; rewrite ?Z.mul_0_r, ?Z.mul_1_r, ?Z.add_0_r, ?plus_IZR;
  unfold odet, psub, det3;
  match goal with |- Rabs ?e / 6 = _ =>
    first [ replace e with (IZR skip ^ 3) by ring; rewrite Rabs_pos_eq by lra; reflexivity
          | replace e with (- (IZR skip ^ 3)) by ring; rewrite Rabs_Ropp, Rabs_pos_eq by lra; reflexivity ] end.
Qed.
