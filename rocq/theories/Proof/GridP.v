From Coq Require Import ZArith Znumtheory List Lia Lra Bool Reals.
From Coq Require Import ZifyBool ZifyNat.
From Verif Require Import Base.Res Base.ResFacts Base.Num Model.Geom Spec.Geometry Spec.GeomDefs.
Import ListNotations.
Open Scope Z_scope.


(** ** Grid indices *)
Lemma idx_decomp n m a b c : 0 < n -> 0 < m -> 0 <= a < n -> 0 <= b < m -> 0 <= c ->
  let i := a + b * n + c * (n * m) in
  Z.rem i n = a /\ Z.quot (Z.rem i (n * m)) n = b /\ Z.quot i (n * m) = c.
Proof.
  intros Hn Hm Ha Hb Hc i.
  assert (P : 0 < n * m) by (apply Z.mul_pos_pos; lia).
  assert (I0 : 0 <= i) by (subst i; assert (0 <= b * n) by (apply Z.mul_nonneg_nonneg; lia);
    assert (0 <= c * (n * m)) by (apply Z.mul_nonneg_nonneg; lia); lia).
  assert (AB : 0 <= a + b * n < n * m) by nia.
  assert (R1 : i mod n = a).
  { symmetry. apply Z.mod_unique with (b + c * m); [lia|]. subst i. ring. }
  assert (R2 : i mod (n * m) = a + b * n).
  { symmetry. apply Z.mod_unique with c; [lia|]. subst i. ring. }
  assert (Q1 : (a + b * n) / n = b).
  { symmetry. apply Z.div_unique with a; [lia|]. ring. }
  assert (Q2 : i / (n * m) = c).
  { symmetry. apply Z.div_unique with (a + b * n); [lia|]. subst i. ring. }
  rewrite Z.rem_mod_nonneg by lia. rewrite Z.rem_mod_nonneg by lia. rewrite R1, R2.
  rewrite !Z.quot_div_nonneg by lia. auto.
Qed.


Lemma bounds_check_iff o w x y z :
  bounds_check (new_grid o w) x y z = true <-> inside o w (x, y, z).
Proof.
  unfold bounds_check, inside, in_box, in_range, tup, new_grid; simpl.
  rewrite !andb_true_iff, !Z.leb_le, !Z.ltb_lt. lia.
Qed.

Lemma grid_idx_range o w x y z : inside o w (x, y, z) ->
  0 <= grid_idx (new_grid o w) x y z < gvolume (new_grid o w).
Proof.
  unfold inside, in_box, in_range, tup, grid_idx, new_grid; simpl. destruct o as [ox oy oz], w as [wx wy wz]; simpl.
  intros (X & Y & Z_). set (a := x - ox). set (b := y - oy). set (c := z - oz).
  assert (0 <= a < wx) by lia. assert (0 <= b < wy) by lia. assert (0 <= c < wz) by lia.
  assert (0 <= a + b * wx < wx * wy) by nia. nia.
Qed.

Lemma grid_coords_idx o w x y z : inside o w (x, y, z) ->
  grid_coords (new_grid o w) (grid_idx (new_grid o w) x y z) =
  Ok (V3 (x - v0 o) (y - v1 o) (z - v2 o)).
Proof.
  unfold inside, in_box, in_range, tup, grid_idx, new_grid, grid_coords; simpl.
  destruct o as [ox oy oz], w as [wx wy wz]; simpl. intros (X & Y & Z_).
  assert (P : 0 < wx * wy) by (apply Z.mul_pos_pos; lia).
  pose proof (idx_decomp wx wy (x - ox) (y - oy) (z - oz) ltac:(lia) ltac:(lia) ltac:(lia) ltac:(lia) ltac:(lia)) as E.
  assert (wx <> 0) as N1 by (clear E; lia). assert (wx * wy <> 0) as N2 by (clear E; lia).
  destruct E as (E1 & E2 & E3). unfold rem, quot.
  destruct (Z.eqb_spec wx 0); [contradiction|]. destruct (Z.eqb_spec (wx * wy) 0); [contradiction|]. cbn [bind].
  rewrite E1, E2, E3. reflexivity.
Qed.

Lemma grid_idx_coords o w i : 0 < v0 w -> 0 < v1 w -> 0 < v2 w ->
  0 <= i < gvolume (new_grid o w) ->
  exists a b c, grid_coords (new_grid o w) i = Ok (V3 a b c) /\
    inside o w (a + v0 o, b + v1 o, c + v2 o) /\
    grid_idx (new_grid o w) (a + v0 o) (b + v1 o) (c + v2 o) = i.
Proof.
  destruct o as [ox oy oz], w as [wx wy wz]; cbn [v0 v1 v2 gvolume new_grid]. intros Hx Hy Hz Hi.
  assert (P : 0 < wx * wy) by (apply Z.mul_pos_pos; lia).
  exists (i mod wx), ((i mod (wx * wy)) / wx), (i / (wx * wy)).
  unfold grid_coords, rem, quot; cbn [glength garea new_grid v0 v1 v2].
  destruct (Z.eqb_spec wx 0); [lia|]. destruct (Z.eqb_spec (wx * wy) 0); [lia|]. cbn [bind].
  pose proof (Z.mod_pos_bound i wx ltac:(lia)). pose proof (Z.mod_pos_bound i (wx * wy) P).
  rewrite !Z.rem_mod_nonneg, !Z.quot_div_nonneg by lia. split; auto.
  assert (B : 0 <= i mod (wx * wy) / wx < wy).
  { split; [apply Z.div_pos; lia|]. apply Z.div_lt_upper_bound; lia. }
  assert (C : 0 <= i / (wx * wy) < wz).
  { split; [apply Z.div_pos; lia|]. apply Z.div_lt_upper_bound; lia. }
  split.
  - unfold inside, in_box, in_range, tup; cbn [v0 v1 v2]. lia.
  - unfold grid_idx, new_grid; cbn [gcb origin glength garea v0 v1 v2].
    rewrite !Z.add_simpl_r.
    assert (E1 : i mod wx = (i mod (wx * wy)) mod wx).
    { apply Zmod_div_mod; try lia. exists wy. lia. }
    pose proof (Z.div_mod (i mod (wx * wy)) wx ltac:(lia)).
    pose proof (Z.div_mod i (wx * wy) ltac:(lia)). rewrite E1. lia.
Qed.

Lemma grid_idx_inj o w c c' : inside o w c -> inside o w c' ->
  (let '(x, y, z) := c in grid_idx (new_grid o w) x y z) =
  (let '(x, y, z) := c' in grid_idx (new_grid o w) x y z) -> c = c'.
Proof.
  destruct c as [[x y] z], c' as [[x' y'] z']. intros H H' E.
  pose proof (grid_coords_idx o w x y z H) as A. pose proof (grid_coords_idx o w x' y' z' H') as B.
  rewrite E in A. rewrite A in B. injection B as E1 E2 E3. f_equal; [f_equal|]; lia.
Qed.

(** ** Box intersections *)
Lemma cong_spec L a b : 0 < L -> cong L a b -> exists k, a - b = k * L.
Proof. intros H [k E]. exists k. lia. Qed.

Lemma bound_value L d : 0 < L -> - L < d < 2 * L -> d <> L ->
  let r := if d <? 0 then d + L else if d >? L then d - L else d in
  0 <= r < L /\ exists k, r = d + k * L.
Proof.
  intros HL Hd N r. subst r.
  destruct (Z.ltb_spec d 0); [split; [lia|exists 1; lia]|].
  destruct (Z.gtb_spec d L); [split; [lia|exists (-1); lia]|split; [lia|exists 0; lia]].
Qed.

(** Small width against big width. *)
Lemma axis_no_false_negative L oS wS oB wB :
  0 < L -> 0 <= oS < L -> 0 <= oB < L -> 0 < wS <= wB -> wB <= L ->
  share L oS wS oB wB ->
  (bound (oS + wS) oB L <? wB) || (bound oS oB L <? wB) = true.
Proof.
  intros HL HS HB HW HB2 (a & b & Ha & Hb & [k E]). unfold in_range in *.
  apply orb_true_iff. rewrite !Z.ltb_lt. unfold bound; cbv zeta.
  (* b = oB + s, a = oS + t *)
  assert (K : k = -1 \/ k = 0 \/ k = 1) by nia.
  assert (KL : a = b - L \/ a = b \/ a = b + L) by (destruct K as [-> | [-> | ->]]; lia). clear E K.
  destruct (Z.ltb_spec (oS + wS - oB) 0), (Z.ltb_spec (oS - oB) 0);
  destruct (Z.gtb_spec (oS + wS - oB) L), (Z.gtb_spec (oS - oB) L); lia.
Qed.

Lemma axis_true L oS wS oB wB :
  0 < L -> 0 <= oS < L -> 0 <= oB < L -> 0 < wS <= wB -> wB <= L ->
  (bound (oS + wS) oB L <? wB) || (bound oS oB L <? wB) = true ->
  share L oS wS oB wB \/ touch L oS wS oB wB.
Proof.
  intros HL HS HB HW HB2 H. apply orb_true_iff in H. rewrite !Z.ltb_lt in H.
  unfold share, touch, in_range, cong.
  destruct H as [H|H]; unfold bound in H; cbv zeta in H.
  - destruct (Z.ltb_spec (oS + wS - oB) 0) as [A|A].
    + left. exists (oS + wS - 1), (oS + wS - 1 + L). repeat split; try lia. exists (-1). lia.
    + destruct (Z.gtb_spec (oS + wS - oB) L) as [B|B].
      * left. exists (oS + wS - 1), (oS + wS - 1 - L). repeat split; try lia. exists 1. lia.
      * destruct (Z.eq_dec (oS + wS - oB) 0) as [C|C].
        -- right. left. exists 0. lia.
        -- left. exists (oS + wS - 1), (oS + wS - 1). repeat split; try lia. exists 0. lia.
  - destruct (Z.ltb_spec (oS - oB) 0) as [A|A].
    + left. exists oS, (oS + L). repeat split; try lia. exists (-1). lia.
    + destruct (Z.gtb_spec (oS - oB) L) as [B|B].
      * lia.
      * left. exists oS, oS. repeat split; try lia. exists 0. lia.
Qed.

Lemma share_sym L o1 w1 o2 w2 : share L o1 w1 o2 w2 -> share L o2 w2 o1 w1.
Proof. intros (a & b & A & B & [k E]). exists b, a. split; [exact B|split; [exact A|exists (- k); lia]]. Qed.

Lemma touch_sym L o1 w1 o2 w2 : touch L o1 w1 o2 w2 -> touch L o2 w2 o1 w1.
Proof. unfold touch. tauto. Qed.

Lemma intersect_axis_share L o1 w1 o2 w2 :
  0 < L -> 0 <= o1 < L -> 0 <= o2 < L -> 0 < w1 <= L -> 0 < w2 <= L ->
  share L o1 w1 o2 w2 -> intersect_axis o1 w1 o2 w2 L = true.
Proof.
  intros. unfold intersect_axis. destruct (Z.ltb_spec w1 w2).
  - apply axis_no_false_negative; auto; lia.
  - apply axis_no_false_negative; auto; try lia. now apply share_sym.
Qed.

Lemma intersect_axis_true L o1 w1 o2 w2 :
  0 < L -> 0 <= o1 < L -> 0 <= o2 < L -> 0 < w1 <= L -> 0 < w2 <= L ->
  intersect_axis o1 w1 o2 w2 L = true -> share L o1 w1 o2 w2 \/ touch L o1 w1 o2 w2.
Proof.
  intros HL A B C D. unfold intersect_axis. destruct (Z.ltb_spec w1 w2); intro E.
  - apply axis_true in E; auto; lia.
  - apply axis_true in E; auto; try lia. destruct E; [left; now apply share_sym|right; now apply touch_sym].
Qed.



Lemma intersect_no_false_negative L a b : 0 < L -> valid_box L a -> valid_box L b ->
  share_cell L a b -> cb_intersect a b L = true.
Proof.
  intros HL (A0 & A1 & A2) (B0 & B1 & B2) ([[x y] z] & [[x' y'] z'] & C & D & E0 & E1 & E2).
  unfold in_box, tup in C, D. destruct C as (C0 & C1 & C2), D as (D0 & D1 & D2).
  unfold cb_intersect. rewrite !andb_true_iff.
  split; [split|]; apply intersect_axis_share; try tauto; unfold share; eauto 6.
Qed.

Lemma intersect_sound L a b : 0 < L -> valid_box L a -> valid_box L b ->
  cb_intersect a b L = true ->
  (share L (v0 (origin a)) (v0 (width a)) (v0 (origin b)) (v0 (width b)) \/
   touch L (v0 (origin a)) (v0 (width a)) (v0 (origin b)) (v0 (width b))) /\
  (share L (v1 (origin a)) (v1 (width a)) (v1 (origin b)) (v1 (width b)) \/
   touch L (v1 (origin a)) (v1 (width a)) (v1 (origin b)) (v1 (width b))) /\
  (share L (v2 (origin a)) (v2 (width a)) (v2 (origin b)) (v2 (width b)) \/
   touch L (v2 (origin a)) (v2 (width a)) (v2 (origin b)) (v2 (width b))).
Proof.
  intros HL (A0 & A1 & A2) (B0 & B1 & B2) H. unfold cb_intersect in H.
  rewrite !andb_true_iff in H. destruct H as [[H0 H1] H2].
  split; [|split]; apply intersect_axis_true; tauto.
Qed.

Lemma unbounded_axis_iff o1 w1 o2 w2 : 0 < w1 -> 0 < w2 ->
  unbounded_axis o1 w1 o2 w2 = true <-> exists c, in_range c o1 w1 /\ in_range c o2 w2.
Proof.
  intros H1 H2. unfold unbounded_axis, in_range. destruct (Z.ltb_spec o1 o2); rewrite Z.gtb_lt; split.
  - intro. exists o2. lia.
  - intros [c C]. lia.
  - intro. exists o1. lia.
  - intros [c C]. lia.
Qed.

Lemma unbounded_iff a b :
  0 < v0 (width a) -> 0 < v1 (width a) -> 0 < v2 (width a) ->
  0 < v0 (width b) -> 0 < v1 (width b) -> 0 < v2 (width b) ->
  cb_intersect_unbounded a b = true <->
  exists c : cell, in_box c (tup (origin a)) (tup (width a)) /\
                   in_box c (tup (origin b)) (tup (width b)).
Proof.
  intros. unfold cb_intersect_unbounded. rewrite !andb_true_iff, !unbounded_axis_iff by auto. split.
  - intros [[[x X] [y Y]] [z Z_]]. exists (x, y, z). unfold in_box, tup. tauto.
  - intros [[[x y] z] H6]. unfold in_box, tup in H6. repeat split; [exists x|exists y|exists z]; tauto.
Qed.


Lemma lattice_coords_ok n c : in_lattice n c ->
  lattice_coords (lattice_index n c) n = Ok (let '(x, y, z) := c in V3 x y z).
Proof.
  destruct c as [[x y] z]. simpl. intros (X & Y & Z_). unfold lattice_coords, rem, quot.
  assert (P : 0 < n * n) by (apply Z.mul_pos_pos; lia).
  pose proof (idx_decomp n n x y z ltac:(lia) ltac:(lia) ltac:(lia) ltac:(lia) ltac:(lia)) as E.
  assert (n <> 0) as N1 by (clear E; lia). assert (n * n <> 0) as N2 by (clear E; lia).
  destruct E as (E1 & E2 & E3).
  replace (x + n * (y + n * z)) with (x + y * n + z * (n * n)) by ring.
  destruct (Z.eqb_spec n 0); [contradiction|]. destruct (Z.eqb_spec (n * n) 0); [contradiction|]. cbn [bind].
  rewrite E1, E2, E3. reflexivity.
Qed.

Lemma lattice_index_inj n c d : in_lattice n c -> in_lattice n d ->
  lattice_index n c = lattice_index n d -> c = d.
Proof.
  intros C D E. pose proof (lattice_coords_ok n c C) as A. pose proof (lattice_coords_ok n d D) as B.
  rewrite E in A. rewrite A in B. destruct c as [[x y] z], d as [[x' y'] z'].
  injection B as -> -> ->. reflexivity.
Qed.

Lemma lattice_index_range n c : in_lattice n c -> 0 <= lattice_index n c < n * n * n.
Proof.
  destruct c as [[x y] z]; simpl. intros (X & Y & Z_).
  assert (0 <= y + n * z < n * n) by nia. nia.
Qed.




Lemma tetra_idxs_cells n skip c dir : cube_room n skip c -> 0 <= dir < 6 ->
  tetra_idxs (lattice_index n c) n skip dir =
  Ok (I4 (lattice_index n (cadd c skip (fst (dirs_of dir))))
         (lattice_index n (cadd c skip (snd (dirs_of dir))))
         (lattice_index n (cadd c skip (V3 1 1 1)))
         (lattice_index n c)).
Proof.
  intros R D. assert (L : in_lattice n c) by (destruct c as [[x y] z]; simpl in *; lia).
  unfold tetra_idxs, dirs_of. replace ((dir <? 0) || (dir >=? 6)) with false by lia.
  assert (exists p, dirs dir = Some p) as [[d0 d1] E].
  { assert (dir = 0 \/ dir = 1 \/ dir = 2 \/ dir = 3 \/ dir = 4 \/ dir = 5)
      as [-> | [-> | [-> | [-> | [-> | ->]]]]] by lia; eexists; reflexivity. }
  rewrite E. rewrite lattice_coords_ok by auto. destruct c as [[x y] z]. cbn [bind fst snd v0 v1 v2 cadd].
  unfold compress_coords, lattice_index; cbv zeta. f_equal. f_equal; cbn; ring.
Qed.

Lemma dirs_cases dir : 0 <= dir < 6 ->
  (dir = 0 /\ dirs_of dir = (V3 1 0 0, V3 1 1 0)) \/
  (dir = 1 /\ dirs_of dir = (V3 1 0 0, V3 1 0 1)) \/
  (dir = 2 /\ dirs_of dir = (V3 0 1 0, V3 1 1 0)) \/
  (dir = 3 /\ dirs_of dir = (V3 0 0 1, V3 1 0 1)) \/
  (dir = 4 /\ dirs_of dir = (V3 0 1 0, V3 0 1 1)) \/
  (dir = 5 /\ dirs_of dir = (V3 0 0 1, V3 0 1 1)).
Proof.
  intros. assert (dir = 0 \/ dir = 1 \/ dir = 2 \/ dir = 3 \/ dir = 4 \/ dir = 5)
      as [-> | [-> | [-> | [-> | [-> | ->]]]]] by lia; cbn; tauto.
Qed.


Lemma nodup_lattice n l : NoDup l -> Forall (in_lattice n) l -> NoDup (map (lattice_index n) l).
Proof.
  intros ND. induction ND as [|a l NI ND IH]; intros G; cbn [map]; constructor.
  - intro HI. apply in_map_iff in HI. destruct HI as (b & E & I). apply NI.
    inversion G as [|a0 l0 Ga Gl]; subst a0 l0. rewrite Forall_forall in Gl.
    apply lattice_index_inj in E; [|apply Gl; exact I|exact Ga]. subst b. exact I.
  - apply IH. now inversion G.
Qed.

Lemma tetra_idxs_valid n skip c dir : cube_room n skip c -> 0 <= dir < 6 ->
  exists A B C D : cell,
    tetra_idxs (lattice_index n c) n skip dir =
      Ok (I4 (lattice_index n A) (lattice_index n B) (lattice_index n C) (lattice_index n D)) /\
    Forall (cube_corner skip c) [A; B; C; D] /\ Forall (in_lattice n) [A; B; C; D] /\
    Forall (fun i => 0 <= i < n * n * n) (map (lattice_index n) [A; B; C; D]) /\
    NoDup (map (lattice_index n) [A; B; C; D]).
Proof.
  intros R D. eexists _, _, _, _. split; [apply tetra_idxs_cells; auto|].
  destruct c as [[x y] z]. 
  assert (G : Forall (in_lattice n) [cadd (x, y, z) skip (fst (dirs_of dir)); cadd (x, y, z) skip (snd (dirs_of dir));
              cadd (x, y, z) skip (V3 1 1 1); (x, y, z)]).
  { simpl in R. destruct (dirs_cases dir D) as [[_ ->]|[[_ ->]|[[_ ->]|[[_ ->]|[[_ ->]|[_ ->]]]]]];
      repeat (apply Forall_cons; [cbn [cadd cube_corner in_lattice fst snd v0 v1 v2]; lia|]); apply Forall_nil. }
  split; [|split; [exact G|split]].
  - simpl in R. destruct (dirs_cases dir D) as [[_ ->]|[[_ ->]|[[_ ->]|[[_ ->]|[[_ ->]|[_ ->]]]]]];
      repeat (apply Forall_cons; [cbn [cadd cube_corner in_lattice fst snd v0 v1 v2]; lia|]); apply Forall_nil.
  - apply Forall_map. eapply Forall_impl; [|exact G]. intros k. apply lattice_index_range.
  - assert (ND : NoDup [cadd (x, y, z) skip (fst (dirs_of dir)); cadd (x, y, z) skip (snd (dirs_of dir));
              cadd (x, y, z) skip (V3 1 1 1); (x, y, z)]).
    { simpl in R. destruct (dirs_cases dir D) as [[_ ->]|[[_ ->]|[[_ ->]|[[_ ->]|[[_ ->]|[_ ->]]]]]];
        repeat (apply NoDup_cons; [cbn [cadd fst snd v0 v1 v2 In]; intros H;
          repeat (destruct H as [H|H]; [injection H; lia|]); exact H|]); apply NoDup_nil. }
    exact (nodup_lattice n _ ND G).
Qed.

Lemma cartesian_same n c dir : cube_room n 1 c -> 0 <= dir < 6 ->
  (let '(x, y, z) := c in tetra_idxs_cartesian x y z n dir) = tetra_idxs (lattice_index n c) n 1 dir.
Proof.
  intros R D. rewrite tetra_idxs_cells by auto. destruct c as [[x y] z].
  unfold tetra_idxs_cartesian, dirs_of. replace (dir <? 0) with false by lia.
  assert (exists p, dirs dir = Some p) as [[d0 d1] E].
  { assert (dir = 0 \/ dir = 1 \/ dir = 2 \/ dir = 3 \/ dir = 4 \/ dir = 5)
      as [-> | [-> | [-> | [-> | [-> | ->]]]]] by lia; eexists; reflexivity. }
  rewrite E. cbn [fst snd v0 v1 v2 cadd].
  unfold compress_coords, lattice_index; cbv zeta. f_equal. f_equal; ring.
Qed.

(** InitCentered: only the x coordinate is checked. *)
Lemma centered_bad :
  exists n skip c dir A B C D, in_lattice n c /\ 0 < skip /\
    tetra_idxs_centered (lattice_index n c) n skip dir = Ok (Some (I4 A B C D)) /\
    ~ (0 <= A < n * n * n).
Proof.
  exists 2, 1, (0, 0, 1), 0. unfold tetra_idxs_centered. cbn.
  eexists _, _, _, _. split; [lia|]. split; [lia|]. split; [reflexivity|]. lia.
Qed.


Lemma centers_cases dir : 0 <= dir < 8 -> exists s1 s2 s3,
  centers dir = Some (V3 0 0 s1, V3 0 s2 0, V3 s3 0 0) /\
  (s1 = 1 \/ s1 = -1) /\ (s2 = 1 \/ s2 = -1) /\ (s3 = 1 \/ s3 = -1).
Proof.
  intros. assert (dir = 0 \/ dir = 1 \/ dir = 2 \/ dir = 3 \/ dir = 4 \/ dir = 5 \/ dir = 6 \/ dir = 7)
      as [-> | [-> | [-> | [-> | [-> | [-> | [-> | ->]]]]]]] by lia;
  (eexists _, _, _; split; [reflexivity|]; lia).
Qed.

Lemma check_eq x y z dx dy dz n :
  compress_coords_check x y z dx dy dz n =
  if (0 <=? x + dx) && (x + dx <? n) then (lattice_index n (x + dx, y + dy, z + dz), true) else (-1, false).
Proof.
  unfold compress_coords_check; cbv zeta.
  destruct ((x + dx >=? n) || (x + dx <? 0)) eqn:E.
  - replace ((0 <=? x + dx) && (x + dx <? n)) with false by lia. reflexivity.
  - replace ((0 <=? x + dx) && (x + dx <? n)) with true by lia.
    unfold lattice_index. f_equal. ring.
Qed.

(** Away from the y and z faces the check is exact. *)
Lemma centered_partial n skip c dir : in_lattice n c -> 0 < skip -> 0 <= dir < 8 ->
  (let '(x, y, z) := c in skip <= y /\ y + skip < n /\ skip <= z /\ z + skip < n) ->
  let A := cadd c skip (fst (fst (centers_of dir))) in
  let B := cadd c skip (snd (fst (centers_of dir))) in
  let C := cadd c skip (snd (centers_of dir)) in
  (in_lattice n A /\ in_lattice n B /\ in_lattice n C /\
   tetra_idxs_centered (lattice_index n c) n skip dir =
     Ok (Some (I4 (lattice_index n A) (lattice_index n B) (lattice_index n C) (lattice_index n c)))) \/
  (~ (in_lattice n A /\ in_lattice n B /\ in_lattice n C) /\
   tetra_idxs_centered (lattice_index n c) n skip dir = Ok None).
Proof.
  intros L S D R A B C. unfold tetra_idxs_centered.
  replace ((dir <? 0) || (dir >=? 8)) with false by lia.
  rewrite lattice_coords_ok by auto. subst A B C. unfold centers_of.
  destruct (centers_cases dir D) as (s1 & s2 & s3 & E & H1 & H2 & H3). rewrite E.
  destruct c as [[x y] z]. simpl in L. cbn [bind v0 v1 v2 fst snd cadd]. rewrite !check_eq.
  cbn [in_lattice]. rewrite !Z.mul_0_r, !Z.add_0_r.
  replace ((0 <=? x) && (x <? n)) with true by lia. cbn [negb].
  destruct ((0 <=? x + skip * s3) && (x + skip * s3 <? n)) eqn:G; cbn [negb].
  - left. destruct H1 as [-> | ->], H2 as [-> | ->], H3 as [-> | ->];
    (split; [lia|split; [lia|split; [lia|reflexivity]]]).
  - right. destruct H1 as [-> | ->], H2 as [-> | ->], H3 as [-> | ->]; (split; [lia|reflexivity]).
Qed.

Lemma idx_check_ok o w x y z :
  (inside o w (x, y, z) -> idx_check (new_grid o w) x y z = (grid_idx (new_grid o w) x y z, true)) /\
  (~ inside o w (x, y, z) -> idx_check (new_grid o w) x y z = (-1, false)).
Proof.
  unfold idx_check. split; intro H.
  - apply bounds_check_iff in H. now rewrite H.
  - destruct (bounds_check (new_grid o w) x y z) eqn:E; [|reflexivity].
    apply bounds_check_iff in E. contradiction.
Qed.

Lemma centered_inside n skip c dir : in_lattice n c -> 0 < skip -> 0 <= dir < 8 ->
  (let '(x, y, z) := c in skip <= y /\ y + skip < n /\ skip <= z /\ z + skip < n) ->
  (forall i, tetra_idxs_centered (lattice_index n c) n skip dir = Ok (Some i) ->
     exists A B C, i = I4 (lattice_index n A) (lattice_index n B) (lattice_index n C) (lattice_index n c) /\
       Forall (in_lattice n) [A; B; C] /\ Forall (step_of skip c) [A; B; C] /\ NoDup [A; B; C; c]) /\
  ((let '(x, _, _) := c in skip <= x /\ x + skip < n) ->
     exists i, tetra_idxs_centered (lattice_index n c) n skip dir = Ok (Some i)).
Proof.
  intros L S D R. pose proof (centered_partial n skip c dir L S D R) as P. cbv zeta in P.
  destruct (centers_cases dir D) as (s1 & s2 & s3 & E & H1 & H2 & H3).
  unfold centers_of in P. rewrite E in P. cbn [fst snd] in P.
  destruct c as [[x y] z]. simpl in L. split.
  - intros i EI. destruct P as [(LA & LB & LC & P)|[_ P]]; rewrite P in EI; [|discriminate].
    injection EI as <-.
    exists (cadd (x, y, z) skip (V3 0 0 s1)), (cadd (x, y, z) skip (V3 0 s2 0)), (cadd (x, y, z) skip (V3 s3 0 0)).
    split; [reflexivity|]. split; [|split].
    + apply Forall_cons; [exact LA|]. apply Forall_cons; [exact LB|]. apply Forall_cons; [exact LC|]. apply Forall_nil.
    + repeat (apply Forall_cons; [cbn [cadd step_of v0 v1 v2]; lia|]). apply Forall_nil.
    + repeat (apply NoDup_cons; [cbn [cadd v0 v1 v2 In]; intros H;
        repeat (destruct H as [H|H]; [injection H; lia|]); exact H|]). apply NoDup_nil.
  - intro X. destruct P as [(_ & _ & _ & P)|[P _]]; [eauto|]. exfalso. apply P.
    cbn [cadd in_lattice v0 v1 v2]. lia.
Qed.

Lemma coords_bad : exists o w x y z, inside o w (x, y, z) /\
  grid_coords (new_grid o w) (grid_idx (new_grid o w) x y z) <> Ok (V3 x y z).
Proof.
  exists (V3 1 0 0), (V3 2 2 2), 1, 0, 0. split.
  - unfold inside, in_box, in_range, tup; cbn. lia.
  - discriminate.
Qed.
