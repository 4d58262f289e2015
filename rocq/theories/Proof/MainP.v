(** The main program: segments, names, validation, pixels. *)
From Coq Require Import String DecimalString Decimal ZArith List Bool Lia ZifyBool ZifyNat Permutation Reals Lra Psatz.
From Flocq Require Import Core.Raux.
From Verif Require Import Base.Res Base.ResFacts Base.Num Base.IEEE Base.Convert Model.Geom Model.Config Model.Main Spec.Work Spec.Segments Spec.GeomDefs
  Proof.SegP Proof.BoundsP Proof.GeomR.
Import ListNotations.
Open Scope Z_scope.

(** ** Segments *)
Section Seg.
Context {F : Type} {NF : Num F} (d : vec3 F).

Theorem segments_thm n s cells w xs vs : 0 < cells -> 0 < s -> n = cells * s -> zlen xs = n * n * n -> zlen vs = n * n * n ->
  (exists out, write_grids d n cells w xs vs = Ok out /\ zlen out = cells * cells * cells /\
    forall x y z, 0 <= x < cells -> 0 <= y < cells -> 0 <= z < cells ->
      exists sg, get out (cube_index cells x y z) = Ok (sheet_name x y z, sg) /\
        holds_cube d n s x y z xs (sg_x sg) /\ holds_cube d n s x y z vs (sg_v sg)) /\
  (forall p q r, 0 <= p < n -> 0 <= q < n -> 0 <= r < n ->
    exists! t, let '(x, y, z) := t in 0 <= x < cells /\ 0 <= y < cells /\ 0 <= z < cells /\ cube_in_segment s x y z p q r).
Proof.
  intros Hc Hs Hn LX LV. split.
  - destruct (write_grids_ok d n s cells w xs vs Hc Hs ltac:(lia) LX LV) as (out & E & L & H). exists out. split; [exact E|]. split; [exact L|].
    intros x y z Hx Hy Hz. destruct (H x y z Hx Hy Hz) as (sg & G & A & B & _). exists sg. auto.
  - intros p q r. rewrite Hn. now apply cubes_tile.
Qed.

Lemma holds_unique n s x y z (all a b : list (vec3 F)) : 0 < s -> holds_cube d n s x y z all a -> holds_cube d n s x y z all b -> a = b.
Proof.
  intros Hs (La & Ha) (Lb & Hb). apply (list_ext d); [lia|]. intros i Hi. rewrite La in Hi.
  set (g := s + 1) in *.
  assert (Hg : 0 < g) by lia.
  assert (E : i = cube_index g (i mod g) ((i / g) mod g) (i / g / g)).
  { unfold cube_index. pose proof (Z.div_mod i g ltac:(lia)). pose proof (Z.div_mod (i / g) g ltac:(lia)). nia. }
  assert (R1 : 0 <= i / g) by (apply Z.div_pos; lia). assert (R2 : 0 <= i / g / g) by (apply Z.div_pos; lia).
  assert (R3 : i / g / g < g).
  { rewrite Z.div_div by lia. apply Z.div_lt_upper_bound; [nia|lia]. }
  pose proof (Z.mod_pos_bound i g Hg). pose proof (Z.mod_pos_bound (i / g) g Hg).
  rewrite E. rewrite Ha, Hb; [reflexivity|unfold g in *; lia..].
Qed.

(** Particles that no segment reads. *)
Theorem lost_thm n s cells r w xs vs p q : 0 < s -> 2 <= r < cells -> n = cells * s + r ->
  zlen xs = n * n * n -> zlen vs = n * n * n ->
  (exists out, write_grids d n cells w xs vs = Ok out) /\
  write_grids d n cells w (upd xs (Z.to_nat (n - 1)) p) (upd vs (Z.to_nat (n - 1)) q) = write_grids d n cells w xs vs.
Proof.
  intros Hs Hr Hn LX LV. assert (Hc : 0 < cells) by lia. assert (N : n - 1 < n * n * n) by nia.
  assert (N2 : 2 < n) by nia.
  destruct (write_grids_ok d n s cells w xs vs Hc Hs ltac:(lia) LX LV) as (o1 & E1 & L1 & H1).
  destruct (write_grids_ok d n s cells w (upd xs (Z.to_nat (n - 1)) p) (upd vs (Z.to_nat (n - 1)) q) Hc Hs ltac:(lia)) as (o2 & E2 & L2 & H2);
    [rewrite zlen_upd; exact LX|rewrite zlen_upd; exact LV|].
  split; [eauto|]. rewrite E1, E2. f_equal.
  assert (U : forall l v i, zlen l = n * n * n -> 0 <= i -> i <> n - 1 -> zn d (upd l (Z.to_nat (n - 1)) v) i = zn d l i).
  { intros l v i Ll Hi Hne. apply zn_upd_neq; lia. }
  assert (PI : forall x y z a b c, 0 <= x < cells -> 0 <= a <= s -> 0 <= periodic_index n (s * x + a) (s * y + b) (s * z + c) /\
     periodic_index n (s * x + a) (s * y + b) (s * z + c) <> n - 1).
  { intros x y z a b c Hx Ha. unfold periodic_index.
    assert (s * x + a <= cells * s) by nia. rewrite (Z.mod_small (s * x + a)) by nia.
    pose proof (Z.mod_pos_bound (s * y + b) n ltac:(lia)). pose proof (Z.mod_pos_bound (s * z + c) n ltac:(lia)).
    set (u := (s * y + b) mod n) in *. set (v := (s * z + c) mod n) in *. clearbody u v.
    assert (0 <= s * x) by nia. split; [nia|]. intro EQ. assert (u = 0 /\ v = 0) as (-> & ->); [|lia]. split; nia. }
  assert (HH : forall x y z l v seg, zlen l = n * n * n -> 0 <= x < cells -> holds_cube d n s x y z (upd l (Z.to_nat (n - 1)) v) seg -> holds_cube d n s x y z l seg).
  { intros x y z l v seg Ll Hx (A & B). split; [exact A|]. intros a b c Ha Hb Hc'. rewrite B by assumption. apply U; [exact Ll|apply PI; assumption|apply PI; assumption]. }
  symmetry. assert (Dv : exists dd : string * segment F, True).
  { destruct (H1 0 0 0 ltac:(lia) ltac:(lia) ltac:(lia)) as (sg & _). exists (EmptyString, sg). exact I. }
  destruct Dv as (dd & _). apply (list_ext dd); [lia|]. intros i Hi. rewrite L1 in Hi.
  assert (Ei : exists x y z, 0 <= x < cells /\ 0 <= y < cells /\ 0 <= z < cells /\ i = cube_index cells x y z).
  { exists (i mod cells), ((i / cells) mod cells), (i / cells / cells).
    split; [apply Z.mod_pos_bound; lia|]. split; [apply Z.mod_pos_bound; lia|]. split.
    - split; [apply Z.div_pos; [apply Z.div_pos; lia|lia]|]. rewrite Z.div_div by lia. apply Z.div_lt_upper_bound; [nia|lia].
    - unfold cube_index. pose proof (Z.div_mod i cells ltac:(lia)). pose proof (Z.div_mod (i / cells) cells ltac:(lia)). nia. }
  destruct Ei as (x & y & z & Hx & Hy & Hz & Ei). rewrite Ei.
  destruct (H1 x y z Hx Hy Hz) as (g1 & G1 & A1 & B1 & C1). destruct (H2 x y z Hx Hy Hz) as (g2 & G2 & A2 & B2 & C2).
  assert (X : sg_x g1 = sg_x g2) by (eapply holds_unique; [exact Hs|exact A1|eapply HH; [|exact Hx|eassumption]; assumption]).
  assert (V : sg_v g1 = sg_v g2) by (eapply holds_unique; [exact Hs|exact B1|eapply HH; [|exact Hx|eassumption]; assumption]).
  rewrite <- X, <- V in C2.
  pose proof (PI x y z 0 0 0 Hx ltac:(lia)) as P0. rewrite !Z.add_0_r in P0.
  rewrite !U in C2 by (tauto || lia). cbv zeta in C1, C2.
  destruct C1 as (C11 & C12 & C13 & C14), C2 as (C21 & C22 & C23 & C24).
  assert (g1 = g2) as <- by (clear - X V C11 C12 C13 C14 C21 C22 C23 C24; destruct g1 as [a1 a2 a3 a4 a5 a6], g2 as [b1 b2 b3 b4 b5 b6]; cbn [sg_x sg_v sg_origin sg_width sg_vorigin sg_vwidth] in *; congruence).
  assert (GZ : forall (l : list (string * segment F)) e, get l (cube_index cells x y z) = Ok e -> zn dd l (cube_index cells x y z) = e).
  { intros l e G. pose proof (get_inv _ _ _ G). rewrite (get_ok dd) in G by assumption. congruence. }
  now rewrite (GZ _ _ G1), (GZ _ _ G2).
Qed.
End Seg.

(** ** Bounds, in exact arithmetic *)
Section Bounds.
Open Scope R_scope.

Theorem bounds_thm (d : vec3 R) n s cells L xs vs : (0 < cells)%Z -> (0 < s)%Z -> (n = cells * s)%Z -> zlen xs = (n * n * n)%Z -> zlen vs = (n * n * n)%Z ->
  exists out, write_grids d n cells L xs vs = Ok out /\
  forall i name sg, get out i = Ok (name, sg) ->
    (forall coord, In coord [v0; v1; v2] -> Forall (fun p => 0 <= coord p < L) (sg_x sg) -> within_half L (map coord (sg_x sg)) ->
      bounds_axis L (coord (sg_origin sg)) (coord (sg_width sg)) (map coord (sg_x sg))) /\
    (forall coord, In coord [v0; v1; v2] -> Forall (fun v => in_axis (coord (sg_vorigin sg)) (coord (sg_vwidth sg)) (coord v)) (sg_v sg)).
Proof.
  intros Hc Hs Hn LX LV.
  destruct (write_grids_ok d n s cells L xs vs Hc Hs ltac:(lia) LX LV) as (out & E & LO & H). exists out. split; [exact E|].
  intros i name sg G. pose proof (get_inv _ _ _ G) as Hi. rewrite LO in Hi.
  assert (Ei : exists x y z, (0 <= x < cells)%Z /\ (0 <= y < cells)%Z /\ (0 <= z < cells)%Z /\ i = cube_index cells x y z).
  { exists (i mod cells)%Z, ((i / cells) mod cells)%Z, (i / cells / cells)%Z.
    split; [apply Z.mod_pos_bound; lia|]. split; [apply Z.mod_pos_bound; lia|]. split.
    - split; [apply Z.div_pos; [apply Z.div_pos; lia|lia]|]. rewrite Z.div_div by lia. apply Z.div_lt_upper_bound; [nia|lia].
    - unfold cube_index. pose proof (Z.div_mod i cells ltac:(lia)). pose proof (Z.div_mod (i / cells) cells ltac:(lia)). nia. }
  destruct Ei as (x & y & z & Hx & Hy & Hz & ->). destruct (H x y z Hx Hy Hz) as (sg' & G' & A & B & C).
  assert (sg' = sg) as -> by congruence. clear H G' E LO Hi G.
  cbv zeta in C. destruct C as (C1 & C2 & C3 & C4).
  destruct A as (LA & A). specialize (A 0 0 0)%Z. rewrite !Z.add_0_r in A. specialize (A ltac:(lia) ltac:(lia) ltac:(lia)).
  set (p0 := zn d xs (periodic_index n (s * x) (s * y) (s * z))) in *.
  assert (IN : In p0 (sg_x sg)).
  { rewrite <- A. unfold zn. apply nth_In. unfold cube_index. unfold zlen in LA. nia. }
  split.
  - set (box := box_of L p0 (sg_x sg)) in *. destruct (project_fold L (sg_x sg) (bb_init p0)) as (P0 & P1 & P2).
    fold (box_of L p0 (sg_x sg)) in P0, P1, P2. fold box in P0, P1, P2.
    intros coord HC HF HW.
    assert (HA : forall p, In p (map coord (sg_x sg)) -> 0 <= p < L).
    { intros p Hp. apply in_map_iff in Hp. destruct Hp as (q & <- & Hq). rewrite Forall_forall in HF. now apply HF. }
    pose proof (axis_bounds L (coord p0) (map coord (sg_x sg)) (in_map _ _ _ IN) HA HW) as AX. cbv zeta in AX.
    rewrite C1, C2.
    destruct HC as [<-|[<-|[<-|[]]]].
    + change (AB (v0 p0) 0 0) with (project v0 (bb_init p0)) in AX. rewrite <- P0 in AX. exact AX.
    + change (AB (v1 p0) 0 0) with (project v1 (bb_init p0)) in AX. rewrite <- P1 in AX. exact AX.
    + change (AB (v2 p0) 0 0) with (project v2 (bb_init p0)) in AX. rewrite <- P2 in AX. exact AX.
  - intros coord HC. apply Forall_forall. intros v Hv. rewrite C3, C4.
    destruct (vel_project (sg_v sg) (zn d vs 0, zn d vs 0)) as (P0 & P1 & P2). cbn [fst snd] in P0, P1, P2.
    fold (vel_of (zn d vs 0) (sg_v sg)) in P0, P1, P2. unfold in_axis.
    destruct HC as [<-|[<-|[<-|[]]]]; cbn [v0 v1 v2 vmap2]; rn;
    [pose proof (vfold1_bounds (map v0 (sg_v sg)) (v0 (zn d vs 0), v0 (zn d vs 0)) (Rle_refl _)) as B1; cbv zeta in B1; rewrite <- P0 in B1
    |pose proof (vfold1_bounds (map v1 (sg_v sg)) (v1 (zn d vs 0), v1 (zn d vs 0)) (Rle_refl _)) as B1; cbv zeta in B1; rewrite <- P1 in B1
    |pose proof (vfold1_bounds (map v2 (sg_v sg)) (v2 (zn d vs 0), v2 (zn d vs 0)) (Rle_refl _)) as B1; cbv zeta in B1; rewrite <- P2 in B1];
    cbn [fst snd] in B1; destruct B1 as (_ & _ & B1 & _); [specialize (B1 (v0 v) (in_map v0 _ _ Hv))|specialize (B1 (v1 v) (in_map v1 _ _ Hv))|specialize (B1 (v2 v) (in_map v2 _ _ Hv))]; lra.
Qed.
End Bounds.

Section Split.
Open Scope R_scope.
Theorem positions_thm (d : vec3 R) n s cells L xs vs : (0 < cells)%Z -> (0 < s)%Z -> (n = cells * s)%Z -> zlen xs = (n * n * n)%Z -> zlen vs = (n * n * n)%Z ->
  exists out, write_grids d n cells L xs vs = Ok out /\
  forall i name sg, get out i = Ok (name, sg) ->
    forall coord, In coord [v0; v1; v2] -> Forall (fun p => 0 <= coord p < L) (sg_x sg) -> within_half L (map coord (sg_x sg)) ->
      bounds_axis L (coord (sg_origin sg)) (coord (sg_width sg)) (map coord (sg_x sg)).
Proof.
  intros A B C D E. destruct (bounds_thm d n s cells L xs vs A B C D E) as (out & F & G). exists out. split; [exact F|].
  intros i name sg H. exact (proj1 (G i name sg H)).
Qed.
Theorem velocities_thm (d : vec3 R) n s cells L xs vs : (0 < cells)%Z -> (0 < s)%Z -> (n = cells * s)%Z -> zlen xs = (n * n * n)%Z -> zlen vs = (n * n * n)%Z ->
  exists out, write_grids d n cells L xs vs = Ok out /\
  forall i name sg, get out i = Ok (name, sg) ->
    forall coord, In coord [v0; v1; v2] -> Forall (fun v => in_axis (coord (sg_vorigin sg)) (coord (sg_vwidth sg)) (coord v)) (sg_v sg).
Proof.
  intros A B C D E. destruct (bounds_thm d n s cells L xs vs A B C D E) as (out & F & G). exists out. split; [exact F|].
  intros i name sg H. exact (proj2 (G i name sg H)).
Qed.

(** The first segment contains the velocity at which the bounds start. *)
Theorem first_tight (d : vec3 R) n s cells L xs vs : (0 < cells)%Z -> (0 < s)%Z -> (n = cells * s)%Z -> zlen xs = (n * n * n)%Z -> zlen vs = (n * n * n)%Z ->
  exists out name sg, write_grids d n cells L xs vs = Ok out /\ get out 0 = Ok (name, sg) /\
    forall coord, In coord [v0; v1; v2] -> tight_axis (coord (sg_vorigin sg)) (coord (sg_vwidth sg)) (map coord (sg_v sg)).
Proof.
  intros Hc Hs Hn LX LV.
  destruct (write_grids_ok d n s cells L xs vs Hc Hs ltac:(lia) LX LV) as (out & E & LO & H).
  destruct (H 0 0 0)%Z as (sg & G & A & (LB & B) & C); try lia.
  exists out, (sheet_name 0 0 0), sg. split; [exact E|]. split; [unfold cube_index in G; rewrite !Z.mul_0_r in G; exact G|].
  cbv zeta in C. destruct C as (_ & _ & C3 & C4).
  assert (IN : In (zn d vs 0) (sg_v sg)).
  { specialize (B 0 0 0)%Z. rewrite !Z.mul_0_r in B. unfold periodic_index, cube_index in B. rewrite !Z.mod_0_l in B by nia. rewrite !Z.mul_0_r in B.
    change (0 + 0 + 0)%Z with 0%Z in B. rewrite <- B by lia. unfold zn. apply nth_In. unfold zlen in LB. nia. }
  destruct (vel_project (sg_v sg) (zn d vs 0, zn d vs 0)) as (P0 & P1 & P2). cbn [fst snd] in P0, P1, P2.
  fold (vel_of (zn d vs 0) (sg_v sg)) in P0, P1, P2. unfold tight_axis. rewrite C3, C4.
  assert (K : forall coord : vec3 R -> R, let r := vfold1 (map coord (sg_v sg)) (coord (zn d vs 0), coord (zn d vs 0)) in
     In (fst r) (map coord (sg_v sg)) /\ In (fst r + (snd r - fst r)) (map coord (sg_v sg))).
  { intros coord r. pose proof (vfold1_bounds (map coord (sg_v sg)) (coord (zn d vs 0), coord (zn d vs 0)) (Rle_refl _)) as B1. cbv zeta in B1. fold r in B1.
    destruct B1 as (_ & _ & _ & B4 & B5). cbn [fst snd] in B4, B5. pose proof (in_map coord _ _ IN) as I0.
    split; [destruct B4 as [->|]; assumption|]. replace (fst r + (snd r - fst r)) with (snd r) by lra. destruct B5 as [->|]; assumption. }
  intros coord [<-|[<-|[<-|[]]]]; cbn [v0 v1 v2 vmap2]; rn.
  - specialize (K v0). cbv zeta in K. rewrite <- P0 in K. exact K.
  - specialize (K v1). cbv zeta in K. rewrite <- P1 in K. exact K.
  - specialize (K v2). cbv zeta in K. rewrite <- P2 in K. exact K.
Qed.
End Split.

(** Without a remainder every particle is written. *)
Theorem all_written {F} {NF : Num F} (d : vec3 F) n s cells w xs vs p q r : 0 < cells -> 0 < s -> n = cells * s -> zlen xs = n * n * n -> zlen vs = n * n * n ->
  0 <= p < n -> 0 <= q < n -> 0 <= r < n ->
  exists out i name sg j, write_grids d n cells w xs vs = Ok out /\ get out i = Ok (name, sg) /\
    get (sg_x sg) j = get xs (cube_index n p q r) /\ get (sg_v sg) j = get vs (cube_index n p q r) /\ 0 <= j < zlen (sg_x sg).
Proof.
  intros Hc Hs Hn LX LV Hp Hq Hr.
  destruct (segments_thm d n s cells w xs vs Hc Hs Hn LX LV) as ((out & E & L & H) & T).
  destruct (T p q r Hp Hq Hr) as ([[x y] z] & (Hx & Hy & Hz & Ip & Iq & Ir) & _).
  destruct (H x y z Hx Hy Hz) as (sg & G & (LA & A) & (LB & B)).
  exists out, (cube_index cells x y z), (sheet_name x y z), sg, (cube_index (s + 1) (p - s * x) (q - s * y) (r - s * z)).
  pose proof (cube_index_range (s + 1) (p - s * x) (q - s * y) (r - s * z) ltac:(lia) ltac:(lia) ltac:(lia)) as HR.
  pose proof (cube_index_range n p q r Hp Hq Hr) as HN.
  split; [exact E|]. split; [exact G|].
  rewrite (get_ok d (sg_x sg)), (get_ok d (sg_v sg)), (get_ok d xs), (get_ok d vs) by lia.
  rewrite A, B by lia. replace (s * x + (p - s * x)) with p by lia. replace (s * y + (q - s * y)) with q by lia. replace (s * z + (r - s * z)) with r by lia.
  unfold periodic_index. rewrite !Z.mod_small by lia. fold (cube_index n p q r). repeat split; try lia.
Qed.
