(** What a worker of HistFromFile computes. *)
From Coq Require Import String.
From Coq Require Import ZArith Reals List Lia Lra Bool Psatz Permutation.
From Coq Require Import ZifyBool ZifyNat.
From Flocq Require Import Core.Raux.
From Verif Require Import Base.Res Base.ResFacts Base.Stride Base.Num Model.Geom Model.GridDeriv Model.Hist Model.Render
  Spec.Histograms Spec.HistDefs Spec.Geometry Spec.GeomDefs Spec.Work Proof.GridP Proof.GeomR Proof.StrideP Proof.WorkP Proof.HistP Proof.HistQ.
From Verif Require Proof.SegP Model.Config.
Import ListNotations.
Open Scope list_scope.
Open Scope R_scope.
Local Notation idR := (fun x : R => x).

Lemma three k : (0 <= k < 3)%Z -> (k = 0 \/ k = 1 \/ k = 2)%Z.
Proof. lia. Qed.

Lemma convex_range L w1 w2 w3 w4 a b c d : 0 <= w1 -> 0 <= w2 -> 0 <= w3 -> 0 <= w4 -> w1 + w2 + w3 + w4 = 1 ->
  0 <= a < L -> 0 <= b < L -> 0 <= c < L -> 0 <= d < L -> 0 <= w1 * a + w2 * b + (w3 * c + w4 * d) < L.
Proof.
  intros H1 H2 H3 H4 HS A B C D. split.
  - assert (0 <= w1 * a) by (apply Rmult_le_pos; lra). assert (0 <= w2 * b) by (apply Rmult_le_pos; lra).
    assert (0 <= w3 * c) by (apply Rmult_le_pos; lra). assert (0 <= w4 * d) by (apply Rmult_le_pos; lra). lra.
  - assert (E : L - (w1 * a + w2 * b + (w3 * c + w4 * d)) = w1 * (L - a) + w2 * (L - b) + w3 * (L - c) + w4 * (L - d)).
    { replace L with (L * (w1 + w2 + w3 + w4)) at 1 by (rewrite HS; ring). ring. }
    assert (P1 : 0 <= w1 * (L - a)) by (apply Rmult_le_pos; lra). assert (P2 : 0 <= w2 * (L - b)) by (apply Rmult_le_pos; lra).
    assert (P3 : 0 <= w3 * (L - c)) by (apply Rmult_le_pos; lra). assert (P4 : 0 <= w4 * (L - d)) by (apply Rmult_le_pos; lra).
    assert (G : forall w x, 1 / 4 <= w -> 0 <= x < L -> 0 < w * (L - x)) by (intros w x Hw Hx; apply Rmult_lt_0_compat; lra).
    destruct (Rle_lt_dec (1 / 4) w1) as [K|K]; [pose proof (G _ _ K A); lra|].
    destruct (Rle_lt_dec (1 / 4) w2) as [K2|K2]; [pose proof (G _ _ K2 B); lra|].
    destruct (Rle_lt_dec (1 / 4) w3) as [K3|K3]; [pose proof (G _ _ K3 C); lra|].
    assert (K4 : 1 / 4 <= w4) by lra. pose proof (G _ _ K4 D). lra.
Qed.

Lemma convex_box L w1 w2 w3 w4 (p a b c d : vec3 R) : 0 <= w1 -> 0 <= w2 -> 0 <= w3 -> 0 <= w4 -> w1 + w2 + w3 + w4 = 1 ->
  in_box_R L a -> in_box_R L b -> in_box_R L c -> in_box_R L d ->
  tup p = combine w1 w2 w3 w4 (tup a) (tup b) (tup c) (tup d) -> in_box_R L p.
Proof.
  intros H1 H2 H3 H4 HS A B C D E k Hk.
  pose proof (convex_range L w1 w2 w3 w4 _ _ _ _ H1 H2 H3 H4 HS (A k Hk) (B k Hk) (C k Hk) (D k Hk)) as K.
  destruct p as [p0 p1 p2]. unfold tup, combine, padd, pscale in E. cbn [v0 v1 v2] in E. injection E as -> -> ->.
  destruct (three k Hk) as [->|[->| ->]]; exact K.
Qed.

Lemma wrap_same L x : 0 <= x < L -> wrap_sample (F := R) L x = x.
Proof. intros H. unfold wrap_sample; rn. rewrite Rle_bool_false by lra. rewrite Rlt_bool_false by lra. reflexivity. Qed.
Lemma wrap_ok L x : 0 < L -> - L <= x < 2 * L -> rcong L (wrap_sample (F := R) L x) x /\ 0 <= wrap_sample (F := R) L x < L.
Proof.
  intros HL H. unfold wrap_sample; rn. unfold rcong.
  destruct (Rle_bool_spec L x).
  - rewrite Rlt_bool_false by lra. split; [exists (-1)%Z|]; lra.
  - destruct (Rlt_bool_spec x 0); split; try lra; [exists 1%Z|exists 0%Z]; lra.
Qed.
Lemma wrap_box L v : in_box_R L v -> vmap (wrap_sample (F := R) L) v = v.
Proof.
  intros H. destruct v as [a b c]. unfold vmap. cbn [v0 v1 v2].
  pose proof (H 0%Z ltac:(lia)). pose proof (H 1%Z ltac:(lia)). pose proof (H 2%Z ltac:(lia)). cbn in *.
  now rewrite !wrap_same.
Qed.

Lemma box_contains_iff L (box : hist_box R) v : hist_box_ok L box -> in_box_R L v ->
  box_contains idR box v L = true <-> forall k, (0 <= k < 3)%Z -> strictly_in L (vget (hb_origin box) k) (vget (hb_span box) k) (vget v k).
Proof.
  intros HB HV. unfold box_contains. rewrite all3_true. split; intros H k Hk; specialize (H k Hk); destruct (HB k Hk), (HV k Hk).
  - apply contains1D_iff in H; auto; lra.
  - apply contains1D_iff; auto; lra.
Qed.

Lemma pixel_unique g a x i j : 0 < hg_pixelWidth g -> 0 < hg_box g ->
  (0 <= i < vget (hg_pixels g) a)%Z -> (0 <= j < vget (hg_pixels g) a)%Z -> IZR (vget (hg_pixels g) a) * hg_pixelWidth g <= hg_box g ->
  pixel_holds (hg_box g) (vget (hg_origin g) a) (hg_pixelWidth g) x i ->
  pixel_holds (hg_box g) (vget (hg_origin g) a) (hg_pixelWidth g) x j -> i = j.
Proof.
  intros PW HL Hi Hj HS (k & K1 & K2) (m & M1 & M2).
  set (o := vget (hg_origin g) a) in *. set (pw := hg_pixelWidth g) in *. set (L := hg_box g) in *. set (n := vget (hg_pixels g) a) in *. clearbody o pw L n.
  assert (B : forall q : Z, (0 <= q < n)%Z -> 0 <= IZR q * pw /\ (IZR q + 1) * pw <= IZR n * pw).
  { intros q Hq. assert (0 <= IZR q) by (apply IZR_le; lia). assert (IZR q + 1 <= IZR n) by (rewrite <- plus_IZR; apply IZR_le; lia).
    split; [apply Rmult_le_pos; lra|apply Rmult_le_compat_r; lra]. }
  destruct (B i Hi), (B j Hj). clear B.
  assert (J : (-1 < k - m < 1)%Z).
  { apply IZR_between with (L := L); auto. rewrite minus_IZR. split; lra. }
  assert (k = m) by lia. subst m.
  assert (D : (-1 < i - j < 1)%Z).
  { apply IZR_between with (L := pw); auto. rewrite minus_IZR. split; lra. }
  lia.
Qed.

Lemma grid_pixel_unique g v p q : grid_ok g -> grid_pixel g v p -> grid_pixel g v q -> p = q.
Proof.
  intros [PW HG] Hp Hq. destruct p as [[i j] k], q as [[i' j'] k']. destruct Hp as ((A & A') & (B & B') & (C & C')), Hq as ((D & D') & (E & E') & (F & F')).
  assert (HL : 0 < hg_box g) by (destruct (HG 0%Z ltac:(lia)) as (_ & _ & _ & ?); lra).
  assert (S : forall a, (0 <= a < 3)%Z -> IZR (vget (hg_pixels g) a) * hg_pixelWidth g <= hg_box g).
  { intros a Ha. destruct (HG a Ha) as (_ & E1 & E2 & _). now rewrite <- E1. }
  f_equal; [f_equal|].
  - apply (pixel_unique g 0 (vget v 0) i i'); auto. apply S. lia.
  - apply (pixel_unique g 1 (vget v 1) j j'); auto. apply S. lia.
  - apply (pixel_unique g 2 (vget v 2) k k'); auto. apply S. lia.
Qed.

Lemma pixel_number_range g v p : grid_pixel g v p -> (0 <= pixel_number g p < pixel_total g)%Z.
Proof.
  destruct p as [[i j] k]. unfold grid_pixel, pixel_number, pixel_total. intros ((A & _) & (B & _) & (C & _)).
  set (a := vget (hg_pixels g) 0) in *. set (b := vget (hg_pixels g) 1) in *. set (c := vget (hg_pixels g) 2) in *. clearbody a b c.
  assert (0 <= j + b * k <= b * c - 1)%Z by nia. nia.
Qed.

Lemma grid_thm g v : grid_ok g -> in_box_R (hg_box g) v ->
  (exists px, grid_pixel g v px /\ (forall q, grid_pixel g v q -> q = px) /\
     grid_index idR g v = pixel_number g px /\ (0 <= pixel_number g px < pixel_total g)%Z) \/
  ((forall px, ~ grid_pixel g v px) /\ grid_index idR g v = (-1)%Z).
Proof.
  intros HG HV. destruct (grid_index_ok g v HG HV) as [(i & j & k & Hi & Hj & Hk & E)|[(a & Ha & N) E]].
  - left. assert (P : grid_pixel g v (i, j, k)) by (unfold grid_pixel; auto).
    exists (i, j, k). split; [exact P|]. split; [intros q Hq; eapply grid_pixel_unique; eauto|]. split; [exact E|].
    eapply pixel_number_range; eauto.
  - right. split; auto. intros [[i j] k] (A & B & C). destruct (three a Ha) as [->|[->| ->]]; [apply (N i)|apply (N j)|apply (N k)]; auto.
Qed.

Lemma sample_density_ok (hd : hist_sheet R R) (box : hist_box R) g grid p :
  hist_box_ok (hs_total hd) box -> grid_ok g -> hg_box g = hs_total hd -> zlen grid = pixel_total g -> in_box_R (hs_total hd) p ->
  exists s, sample_density idR idR hd box g grid p = Ok s /\ sample_at (hs_total hd) box g grid p s /\ (snd s = true -> In (fst s) grid).
Proof.
  intros HB HG HL HN HP. unfold sample_density. cbv beta. rewrite wrap_box by auto.
  pose proof (box_contains_iff _ box p HB HP) as BC. unfold sample_at.
  destruct (box_contains idR box p (hs_total hd)) eqn:EB; cbn [negb].
  2: { eexists. split; [reflexivity|]. cbn [fst snd]. split; [|discriminate]. split; [|discriminate].
       split; [discriminate|]. intros [K _]. apply BC in K. discriminate. }
  assert (HP' : in_box_R (hg_box g) p) by (rewrite HL; auto).
  destruct (grid_thm g p HG HP') as [(px & Hpx & U & E & Rg)|[N E]].
  - cbv zeta. rewrite E. replace (pixel_number g px >=? 0)%Z with true by lia.
    rewrite (get_ok 0) by lia. cbn [bind]. eexists. split; [reflexivity|]. cbn [fst snd]. split.
    + split; [|intros _ q Hq; rewrite (U q Hq); apply get_ok; lia].
      split; auto. intros _. split; [now apply BC|eauto].
    + intros _. unfold zn. apply nth_In. unfold zlen in *. lia.
  - cbv zeta. rewrite E. cbn [Z.geb Z.compare]. eexists. split; [reflexivity|]. cbn [fst snd]. split; [|discriminate]. split; [|discriminate].
    split; [discriminate|]. intros [_ (px & Hpx)]. now apply N in Hpx.
Qed.

(** A sample outside the box is first moved by one period. *)
Lemma sample_wrap_ok (hd : hist_sheet R R) (box : hist_box R) g grid p q :
  hist_box_ok (hs_total hd) box -> grid_ok g -> hg_box g = hs_total hd -> zlen grid = pixel_total g ->
  (forall k, (0 <= k < 3)%Z -> - hs_total hd <= vget p k < 2 * hs_total hd) ->
  in_box_R (hs_total hd) q -> (forall k, (0 <= k < 3)%Z -> rcong (hs_total hd) (vget q k) (vget p k)) ->
  exists s, sample_density idR idR hd box g grid p = Ok s /\ sample_at (hs_total hd) box g grid q s.
Proof.
  intros HB HG HL HN HP HQ HC.
  assert (HL0 : 0 < hs_total hd) by (destruct (HQ 0%Z ltac:(lia)); lra).
  assert (E : vmap (wrap_sample (F := R) (hs_total hd)) p = q).
  { assert (K : forall k, (0 <= k < 3)%Z -> wrap_sample (F := R) (hs_total hd) (vget p k) = vget q k).
    { intros k Hk. destruct (wrap_ok (hs_total hd) (vget p k) HL0 (HP k Hk)) as [(a & Ea) W]. destruct (HC k Hk) as (b & Eb). specialize (HQ k Hk).
      assert (J : (-1 < a - b < 1)%Z).
      { apply IZR_between with (L := hs_total hd); auto. rewrite minus_IZR. split; lra. }
      replace a with b in * by lia. lra. }
    destruct p as [p0 p1 p2], q as [q0 q1 q2]. unfold vmap. cbn [v0 v1 v2].
    f_equal; [apply (K 0%Z)|apply (K 1%Z)|apply (K 2%Z)]; lia. }
  destruct (sample_density_ok hd box g grid q HB HG HL HN HQ) as (s & E1 & E2 & _). exists s. split; auto.
  rewrite <- E1. unfold sample_density. cbv beta. rewrite E. now rewrite wrap_box by auto.
Qed.

Lemma Forall2_nth_intro {A B} (P : A -> B -> Prop) (a : A) : forall l r, length l = length r ->
  (forall b k, (k < length l)%nat -> P (nth k l a) (nth k r b)) -> Forall2 P l r.
Proof.
  induction l as [|x l IH]; intros [|y r] HL H; try discriminate; constructor.
  - apply (H y 0%nat). cbn. lia.
  - apply IH; [cbn in HL; lia|]. intros b k Hk. apply (H b (S k)). cbn. lia.
Qed.

Lemma tab_list {A} (l : list (vec3 R)) (f : vec3 R -> res A) (P : vec3 R -> A -> Prop) :
  Forall (fun p => exists a, f p = Ok a /\ P p a) l ->
  exists r, tabulate (zlen l) (fun j => bind (get l j) f) = Ok r /\ Forall2 P l r.
Proof.
  intros H. rewrite Forall_forall in H.
  destruct (tabulate_wp (fun j => bind (get l j) f) (fun j a => P (zn zero3h l j) a) (zlen l) (zlen_nonneg l)) as (r & E1 & E2 & E3).
  - intros k Hk. rewrite (get_ok zero3h) by auto. cbn [bind]. apply H. unfold zn. apply nth_In. unfold zlen in Hk. lia.
  - exists r. split; auto. apply (Forall2_nth_intro P zero3h); [unfold zlen in E2; lia|].
    intros b k Hk. specialize (E3 b (Z.of_nat k)). unfold zn in E3. rewrite Nat2Z.id in E3. apply E3. unfold zlen. lia.
Qed.

Section Worker.
Variables (points : Z) (hd : hist_sheet R R) (skip : Z) (xs : list (vec3 R)) (box : hist_box R) (info : hist_info R)
  (g : hist_grid R) (grid : list R) (units : list (list (vec3 R))).
Hypothesis HS : hist_setup points hd skip xs box info g grid units.
Let w := hs_grid hd.

Lemma particle_in c : in_lattice w c -> get xs (lattice_index w c) = Ok (particle w xs c) /\ in_box_R (hs_total hd) (particle w xs c).
Proof.
  destruct HS as (_ & _ & _ & _ & _ & HX & HF & _). intros Hc.
  assert (HI : (0 <= lattice_index w c < zlen xs)%Z).
  { rewrite HX. fold w. destruct c as [[x y] z]. cbn -[Z.mul] in *. clear - Hc. nia. }
  split; [apply (get_ok zero3h); auto|]. rewrite Forall_forall in HF. apply HF. unfold particle. apply nth_In. unfold zlen in HI. lia.
Qed.

Lemma get_densities_ok c dir draw : cube_room w skip c -> (0 <= dir < 6)%Z -> (0 <= draw < zlen units)%Z ->
  exists ss, get_densities idR idR hd skip xs box g grid units draw (lattice_index w c) dir = Ok (map fst ss, map snd ss) /\
    tetra_samples units hd skip xs box g grid (c, dir) ss /\
    (is_log info = true -> Forall (fun s => snd s = true -> 0 < fst s) ss).
Proof.
  intros HC HD HU. destruct (tetra_idxs_valid w skip c dir HC HD) as (A & B & C & D & E & _ & HI & _ & _).
  destruct (particle_in A) as [EA PA]; [now inversion HI|]. inversion HI as [|a1 l1 _ HI1]; subst a1 l1.
  destruct (particle_in B) as [EB PB]; [now inversion HI1|]. inversion HI1 as [|a1 l1 _ HI2]; subst a1 l1.
  destruct (particle_in C) as [EC PC]; [now inversion HI2|]. inversion HI2 as [|a1 l1 _ HI3]; subst a1 l1.
  destruct (particle_in D) as [ED PD]; [now inversion HI3|].
  pose proof HS as (_ & _ & _ & _ & _ & _ & _ & HB & _ & HG & HL & HN & HP & HUn).
  unfold get_densities. fold w. rewrite E. cbn [bind i0 i1 i2 i3]. rewrite EA, EB, EC, ED. cbn [bind].
  rewrite (get_ok []) by auto. cbn [bind]. set (u := zn [] units draw).
  assert (UI : In u units) by (unfold u, zn; apply nth_In; unfold zlen in HU; lia).
  rewrite Forall_forall in HUn. destruct (HUn u UI) as (ps & Hps & _ & Eu).
  pose proof (distribute_unit_simplex ps Hps) as US. rewrite <- Eu in US.
  set (t := tetra_init tetra_zero (particle w xs A) (particle w xs B) (particle w xs C) (particle w xs D)).
  set (pt := fun q : vec3 R => bary_point (snd (tetra_barycenter t)) (fst (tetra_barycenter t)) q).
  assert (EP : fst (distribute_tetra t u) = map pt u).
  { unfold distribute_tetra, pt. destruct (tetra_barycenter t) as [b t']. reflexivity. }
  rewrite EP.
  assert (Comb : forall q, tup (pt q) = combine (v0 q) (v1 q) (v2 q) (1 - v0 q - v1 q - v2 q)
     (tup (particle w xs A)) (tup (particle w xs B)) (tup (particle w xs C)) (tup (particle w xs D))).
  { intros [a1 a2 a3]. unfold pt. pose proof (barycenter_corners t) as K. destruct (tetra_barycenter t) as [b t']. cbn [fst snd] in *.
    unfold corners in K. injection K as K0 K1 K2 K3. rewrite bary_point_combine, K0, K1, K2, K3. reflexivity. }
  destruct (tab_list (map pt u) (fun p => sample_density idR idR hd box g grid p)
    (fun p s => sample_at (hs_total hd) box g grid p s /\ (snd s = true -> In (fst s) grid))) as (ss & E1 & E2).
  - apply Forall_map. eapply Forall_impl; [|exact US]. intros q (Q0 & Q1 & Q2 & Q3). cbv beta.
    apply sample_density_ok; auto. eapply convex_box; [exact Q0|exact Q1|exact Q2| | |exact PA|exact PB|exact PC|exact PD|apply Comb]; lra.
  - rewrite E1. cbn [bind]. exists ss. split; [reflexivity|]. split.
    + exists A, B, C, D, u. cbn [fst snd]. split; [split; [exact E|exact HI]|]. split; auto. fold w.
      clear - E2 Comb. revert ss E2. induction u as [|q u IH]; intros ss E2; inversion E2; subst; constructor; auto.
      exists (pt q). split; [tauto|apply Comb].
    + intros Hlg. specialize (HP Hlg). rewrite Forall_forall in HP.
      clear - E2 HP. revert ss E2. induction u as [|q u IH]; intros ss E2; inversion E2; subst; constructor; auto.
      intros K. apply HP. tauto.
Qed.

Lemma zsum_app a b : zsum (a ++ b) = (zsum a + zsum b)%Z.
Proof. unfold zsum. induction a as [|x a IH]; cbn; [lia|rewrite IH; lia]. Qed.

Lemma combine_fst_snd {A B} (l : list (A * B)) : List.combine (map fst l) (map snd l) = l.
Proof. induction l as [|[a b] l IH]; cbn; auto. now rewrite IH. Qed.
Lemma zlen_map {A B} (f : A -> B) l : zlen (map f l) = zlen l.
Proof. unfold zlen. now rewrite map_length. Qed.

Definition inside_b (c : cell) : bool :=
  match cube_intersects idR idR hd skip xs (lattice_index w c) with Ok b => b | _ => false end.

Lemma room_lattice c : cube_room w skip c -> in_lattice w c.
Proof. destruct c as [[x y] z]. cbn. lia. Qed.

Lemma inside_b_ok c : cube_room w skip c ->
  cube_intersects idR idR hd skip xs (lattice_index w c) = Ok (inside_b c) /\ (inside_b c = true <-> base_inside hd xs c).
Proof.
  intros HC. destruct HS as (SO & _ & _ & _ & _ & HX & _). destruct (particle_in c (room_lattice c HC)) as [_ PI].
  destruct (cube_intersects_ok hd skip xs c SO HC HX PI) as (b & E1 & E2). unfold inside_b. fold w in E1. rewrite E1. split; auto.
Qed.

Notation samples_rel := (tetra_samples units hd skip xs box g grid).

Variable choose : Z -> Z.
Hypothesis HC : forall n, (0 <= choose n < zlen units)%Z.

Lemma dir_loop_ok c h n : cube_room w skip c -> zlen h = hi_bins info ->
  exists h' sss, for_ 0 6 (fun dir s =>
    let '(hist, n) := s in
    bind (get_densities idR idR hd skip xs box g grid units (choose n) (lattice_index w c) dir) (fun q =>
    bind (histogram log10R (fst q) (snd q) info hist) (fun h => Ok (h, (n + 1)%Z)))) (h, n) = Ok (h', (n + 6)%Z) /\
    zlen h' = hi_bins info /\ Forall2 samples_rel (map (fun dir => (c, dir)) (zseq 6)) sss /\
    forall j, (0 <= j < hi_bins info)%Z -> zn 0%Z h' j = (zn 0%Z h j + zsum (map (info_count info j) sss))%Z.
Proof.
  intros HR HL. pose proof HS as (_ & _ & _ & _ & _ & _ & _ & _ & IO & _).
  set (body := fun dir s => let '(hist, n) := s in _).
  assert (K : wp (for_ 0 6 body (h, n)) (fun s => snd s = (n + 6)%Z /\ zlen (fst s) = hi_bins info /\
    exists sss, Forall2 samples_rel (map (fun dir => (c, dir)) (zseq 6)) sss /\
    forall j, (0 <= j < hi_bins info)%Z -> zn 0%Z (fst s) j = (zn 0%Z h j + zsum (map (info_count info j) sss))%Z)).
  { apply (for_inv (fun d s => snd s = (n + d)%Z /\ zlen (fst s) = hi_bins info /\
      exists sss, Forall2 samples_rel (map (fun dir => (c, dir)) (zseq d)) sss /\
      forall j, (0 <= j < hi_bins info)%Z -> zn 0%Z (fst s) j = (zn 0%Z h j + zsum (map (info_count info j) sss))%Z)); [lia| |].
    - split; [cbn; lia|]. split; auto. exists []. split; [constructor|]. intros j Hj. cbn [fst map zsum fold_right]. lia.
    - intros d [h1 n1] Hd (E & HL1 & sss & F & HJ). cbn [fst snd] in *. subst n1. unfold wp, body.
      destruct (get_densities_ok c d (choose (n + d)) HR Hd (HC _)) as (ss & E1 & E2 & E3). fold w in E1. rewrite E1. cbn [bind fst snd].
      destruct (histogram_ok (map fst ss) (map snd ss) info h1 IO) as (h2 & H1 & H2 & H3); [now rewrite !zlen_map|auto|rewrite combine_fst_snd; auto|].
      rewrite H1. cbn [bind fst snd]. split; [lia|]. split; auto. exists (sss ++ [ss]). split.
      + rewrite SegP.zseq_snoc by lia. rewrite map_app. apply Forall2_app; auto. constructor; [exact E2|constructor].
      + intros j Hj. rewrite H3, HJ by auto. rewrite combine_fst_snd, map_app, zsum_app. unfold info_count at 3. cbn [map zsum fold_right]. unfold info_count. lia. }
  apply (proj1 (wp_ok _ _)) in K. destruct K as ([h' n'] & E & E1 & E2 & sss & E3 & E4). cbn [fst snd] in *. subst n'. eauto 8.
Qed.

Lemma visits_ok l : Forall (cube_room w skip) l -> forall h n, zlen h = hi_bins info ->
  exists h' n' sss, each l (fun c => cube_visit idR idR log10R hd skip xs box info g grid units choose (lattice_index w c)) (h, n) = Ok (h', n') /\
    zlen h' = hi_bins info /\ Forall2 samples_rel (list_prod (filter inside_b l) (zseq 6)) sss /\
    forall j, (0 <= j < hi_bins info)%Z -> zn 0%Z h' j = (zn 0%Z h j + zsum (map (info_count info j) sss))%Z.
Proof.
  intros HF. induction HF as [|c l HR HF IH]; intros h n HL; cbn [each filter].
  - exists h, n, []. split; [reflexivity|]. split; auto. split; [constructor|]. intros. cbn [map zsum fold_right]. lia.
  - destruct (inside_b_ok c HR) as [E _].
    assert (EV : cube_visit idR idR log10R hd skip xs box info g grid units choose (lattice_index w c) (h, n) =
      if negb (inside_b c) then Ok (h, n) else for_ 0 6 (fun dir s =>
        let '(hist, n) := s in
        bind (get_densities idR idR hd skip xs box g grid units (choose n) (lattice_index w c) dir) (fun q =>
        bind (histogram log10R (fst q) (snd q) info hist) (fun h => Ok (h, (n + 1)%Z)))) (h, n)).
    { unfold cube_visit. rewrite E. reflexivity. }
    rewrite EV. destruct (inside_b c) eqn:EI; cbn [negb].
    + destruct (dir_loop_ok c h n HR HL) as (h1 & s1 & E1 & L1 & F1 & J1). rewrite E1. cbn [bind].
      destruct (IH h1 (n + 6)%Z L1) as (h2 & n2 & s2 & E2 & L2 & F2 & J2). exists h2, n2, (s1 ++ s2). split; auto. split; auto.
      split; [cbn [list_prod]; now apply Forall2_app|]. intros j Hj. rewrite J2, J1 by auto. rewrite map_app, zsum_app. lia.
    + cbn [bind]. apply IH; auto.
Qed.

Lemma base_room c : In c (base_cells (hs_seg hd / skip) skip) -> cube_room w skip c.
Proof.
  destruct HS as (_ & Hs & Hseg & Hdiv & Hw & _). fold w in Hw. intros H. unfold base_cells in H. rewrite in_flat_map in H.
  destruct H as (z & Hz & H). rewrite in_flat_map in H. destruct H as (y & Hy & H). rewrite in_map_iff in H. destruct H as (x & <- & Hx).
  apply in_zseq in Hx, Hy, Hz. pose proof (Z.div_exact (hs_seg hd) skip ltac:(lia)) as D. apply proj2 in D. specialize (D Hdiv).
  set (q := (hs_seg hd / skip)%Z) in *. clearbody q. clear Hdiv. cbn. rewrite Hw, D. nia.
Qed.

Definition work_of (workers worker : Z) : list cell := cube_list (hs_seg hd / skip) w skip workers worker.

Lemma chan_histogram_ok quantity workers worker : Config.to_lower quantity = "density"%string -> (1 <= workers)%Z ->
  exists h sss, chan_histogram idR idR log10R hd skip xs box info g grid units quantity workers worker choose = Ok h /\
    zlen h = hi_bins info /\ Forall2 samples_rel (list_prod (filter inside_b (work_of workers worker)) (zseq 6)) sss /\
    forall j, (0 <= j < hi_bins info)%Z -> zn 0%Z h j = zsum (map (info_count info j) sss).
Proof.
  intros HQ HW. pose proof HS as (_ & Hs & Hseg & Hdiv & Hw & _ & _ & _ & (HB & _) & _). fold w in Hw.
  unfold chan_histogram. rewrite HQ. change (negb (String.eqb "density" (Config.to_lower "Density"))) with false. cbv iota.
  fold w. rewrite cube_loop_list by lia.
  replace (rounds 0 (hs_seg hd) skip) with (hs_seg hd / skip)%Z.
  2: { rewrite rounds_ceil by lia. pose proof (Z.div_exact (hs_seg hd) skip ltac:(lia)) as D. apply proj2 in D. specialize (D Hdiv).
       set (q := (hs_seg hd / skip)%Z) in *. rewrite D. replace (skip * q + skip - 1)%Z with (skip - 1 + q * skip)%Z by ring.
       rewrite Z.div_add, Z.div_small by lia. reflexivity. }
  fold (work_of workers worker).
  set (h0 := map (fun _ : Z => 0%Z) (repeat 0%Z (Z.to_nat (hi_bins info)))).
  destruct (visits_ok (work_of workers worker)) with (h := h0) (n := 0%Z) as (h & n' & sss & E & L & F & J).
  - apply Forall_forall. intros c Hc. apply base_room. unfold work_of, cube_list in Hc. now apply filter_In in Hc.
  - unfold h0, zlen. rewrite map_length, repeat_length. lia.
  - rewrite E. cbn [bind fst]. exists h, sss. split; auto. split; auto. split; auto. intros j Hj. rewrite J by auto.
    replace (zn 0%Z h0 j) with 0%Z; [lia|]. unfold h0, zn. clear. generalize (Z.to_nat j) as k. induction (Z.to_nat (hi_bins info)); intros [|k]; cbn; auto.
Qed.
End Worker.
