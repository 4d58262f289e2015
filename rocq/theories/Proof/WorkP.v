(** Partition of a segment over the workers. *)
From Coq Require Import ZArith List Bool Lia ZifyBool ZifyNat Permutation.
From Verif Require Import Base.Res Base.ResFacts Base.Stride Base.Num Model.Geom Model.GridDeriv Model.Density Model.Box Model.Render.
From Verif Require Import Spec.Geometry Spec.Work Proof.StrideP.
Import ListNotations.
Open Scope Z_scope.

Lemma in_zseq n i : In i (zseq n) <-> 0 <= i < n.
Proof.
  unfold zseq. rewrite in_map_iff. split.
  - intros (k & <- & H). apply in_seq in H. lia.
  - intros H. exists (Z.to_nat i). rewrite in_seq. lia.
Qed.
Lemma NoDup_zseq n : NoDup (zseq n).
Proof. unfold zseq. apply FinFun.Injective_map_NoDup; [|apply seq_NoDup]. intros a b H; lia. Qed.

Lemma NoDup_flat_map {A B} (f : A -> list B) (key : B -> A) l :
  NoDup l -> (forall a, In a l -> NoDup (f a)) -> (forall a b, In a l -> In b (f a) -> key b = a) -> NoDup (flat_map f l).
Proof.
  intros HN. induction HN as [|a l Ha HN IH]; intros H1 H2; cbn [flat_map]; [constructor|].
  assert (HA : NoDup (flat_map f l)) by (apply IH; intros; [apply H1|eapply H2]; eauto with datatypes).
  assert (HF : NoDup (f a)) by (apply H1; now left).
  assert (HK : forall b, In b (f a) -> key b = a) by (intros; apply H2; auto with datatypes).
  revert HF HK. induction (f a) as [|b fa IHf]; intros HF HK; cbn [app]; [exact HA|].
  inversion_clear HF. constructor.
  - rewrite in_app_iff. intros [K|K]; [contradiction|].
    rewrite in_flat_map in K. destruct K as (a' & Ha' & Hb).
    apply Ha. rewrite <- (HK b) by now left. rewrite (H2 a' b); auto with datatypes.
  - apply IHf; auto with datatypes.
Qed.

Lemma NoDup_map_key {A B} (f : A -> B) (key : B -> A) l :
  NoDup l -> (forall a, In a l -> key (f a) = a) -> NoDup (map f l).
Proof.
  intros HN H. rewrite <- (app_nil_r (map f l)).
  induction HN as [|a l Ha HN IH]; cbn [map app]; [constructor|].
  constructor.
  - rewrite app_nil_r, in_map_iff. intros (a' & E & Ha'). apply Ha.
    rewrite <- (H a) by now left. rewrite <- E, H by now right. exact Ha'.
  - apply IH; auto with datatypes.
Qed.

Lemma for_each {S A} (g : Z -> A) (body : A -> S -> res S) n s : 0 <= n ->
  for_ 0 n (fun t => body (g t)) s = each (map g (zseq n)) body s.
Proof.
  intros Hn. unfold for_, zseq. replace (n - 0) with n by lia.
  assert (K : forall m lo s, for_n m (Z.of_nat lo) (fun t => body (g t)) s = each (map g (map Z.of_nat (seq lo m))) body s).
  { induction m as [|m IH]; intros lo s'; cbn [for_n seq map each]; auto.
    destruct (body (g (Z.of_nat lo)) s'); cbn [bind]; auto.
    replace (Z.of_nat lo + 1) with (Z.of_nat (Datatypes.S lo)) by lia. apply IH. }
  apply (K (Z.to_nat n) O s).
Qed.

Lemma each_ext {S A} (b1 b2 : A -> S -> res S) l : (forall a s, In a l -> b1 a s = b2 a s) ->
  forall s, each l b1 s = each l b2 s.
Proof.
  induction l as [|a l IH]; intros H s; cbn [each]; auto.
  rewrite H by now left. destruct (b2 a s); cbn [bind]; auto. apply IH. intros; apply H; now right.
Qed.
Lemma each_map {S A B} (g : A -> B) (body : B -> S -> res S) l : forall s,
  each (map g l) body s = each l (fun a => body (g a)) s.
Proof. induction l as [|a l IH]; intros s; cbn [each map]; auto. destruct (body (g a) s); cbn [bind]; auto. Qed.

(** Numbers 0, ..., n^3 - 1 and lattice points. *)
Definition cell_of (n idx : Z) : cell := (idx mod n, idx / n mod n, idx / (n * n)).

Lemma cell_of_ok n idx : 0 < n -> 0 <= idx < n * n * n ->
  let '(x, y, z) := cell_of n idx in 0 <= x < n /\ 0 <= y < n /\ 0 <= z < n /\ x + y * n + z * (n * n) = idx.
Proof.
  intros Hn Hi. cbn. pose proof (Z.mod_pos_bound idx n Hn). pose proof (Z.mod_pos_bound (idx / n) n Hn).
  assert (0 <= idx / (n * n)) by (apply Z.div_pos; nia).
  assert (idx / (n * n) < n) by (apply Z.div_lt_upper_bound; nia).
  pose proof (Z.div_mod idx n ltac:(lia)). pose proof (Z.div_mod (idx / n) n ltac:(lia)).
  rewrite Z.div_div in * by lia. nia.
Qed.

Lemma coords_ok n idx : 0 < n -> 0 <= idx ->
  coords idx n = Ok (V3 (idx mod n) (idx / n mod n) (idx / (n * n))).
Proof.
  intros Hn Hi. unfold coords, rem, quot.
  replace (n =? 0) with false by lia. replace (n * n =? 0) with false by nia. cbn [bind].
  rewrite !Z.rem_mod_nonneg by nia. rewrite !Z.quot_div_nonneg by (try apply Z.mod_pos_bound; nia).
  f_equal. f_equal. rewrite Z.rem_mul_r by lia.
  rewrite (Z.mul_comm n (idx / n mod n)), Z.div_add, Z.div_small by (try apply Z.mod_pos_bound; lia). lia.
Qed.

Definition worker_list (n skip workers id : Z) : list cell :=
  map (fun t => let '(x, y, z) := cell_of n (id + t * workers) in (x * skip, y * skip, z * skip))
      (zseq (rounds id (n * n * n) workers)).

Lemma worker_list_in n skip workers id c : 0 < n -> 0 < skip -> 0 < workers -> 0 <= id < workers ->
  In c (worker_list n skip workers id) ->
  exists x y z, c = (x * skip, y * skip, z * skip) /\ 0 <= x < n /\ 0 <= y < n /\ 0 <= z < n /\
    (x + y * n + z * (n * n)) mod workers = id.
Proof.
  intros Hn Hs Hw Hid. unfold worker_list. rewrite in_map_iff. intros (t & E & Ht). apply in_zseq in Ht.
  assert (id + t * workers < n * n * n) by (apply rounds_spec; lia).
  pose proof (cell_of_ok n (id + t * workers) Hn ltac:(nia)) as K.
  destruct (cell_of n (id + t * workers)) as [[x y] z]. destruct K as (Hx & Hy & Hz & HE).
  exists x, y, z. repeat split; auto; try lia.
  rewrite HE, Z.mod_add by lia. apply Z.mod_small; lia.
Qed.

Lemma workers_partition n skip workers : 0 < n -> 0 < skip -> 0 < workers ->
  Permutation (flat_map (worker_list n skip workers) (zseq workers)) (base_cells n skip).
Proof.
  intros Hn Hs Hw. apply NoDup_Permutation.
  - apply NoDup_flat_map with (key := fun '(x, y, z) => (x / skip + y / skip * n + z / skip * (n * n)) mod workers).
    + apply NoDup_zseq.
    + intros id Hid. apply in_zseq in Hid.
      apply NoDup_map_key with (key := fun '(x, y, z) => (x / skip + y / skip * n + z / skip * (n * n)) / workers).
      * apply NoDup_zseq.
      * intros t Ht. apply in_zseq in Ht.
        assert (id + t * workers < n * n * n) by (apply rounds_spec; lia).
        pose proof (cell_of_ok n (id + t * workers) Hn ltac:(nia)) as K.
        destruct (cell_of n (id + t * workers)) as [[x y] z]. destruct K as (Hx & Hy & Hz & HE).
        rewrite !Z.div_mul by lia. rewrite HE, Z.div_add, Z.div_small by lia. lia.
    + intros id [[a b] c] Hid Hc. apply in_zseq in Hid.
      apply worker_list_in in Hc; auto. destruct Hc as (x & y & z & E & Hx & Hy & Hz & HM).
      injection E as -> -> ->. rewrite !Z.div_mul by lia. exact HM.
  - unfold base_cells. apply NoDup_flat_map with (key := fun '(x, y, z) => z / skip); [apply NoDup_zseq| |].
    + intros z _. apply NoDup_flat_map with (key := fun '(x, y, z) => y / skip); [apply NoDup_zseq| |].
      * intros y _. apply NoDup_map_key with (key := fun '(x, y, z) => x / skip); [apply NoDup_zseq|].
        intros x _. now rewrite Z.div_mul by lia.
      * intros y b _ Hb. rewrite in_map_iff in Hb. destruct Hb as (x & <- & _). now rewrite Z.div_mul by lia.
    + intros z b _ Hb. rewrite in_flat_map in Hb. destruct Hb as (y & _ & Hb).
      rewrite in_map_iff in Hb. destruct Hb as (x & <- & _). now rewrite Z.div_mul by lia.
  - intros c. split.
    + rewrite in_flat_map. intros (id & Hid & Hc). apply in_zseq in Hid. apply worker_list_in in Hc; auto.
      destruct Hc as (x & y & z & -> & Hx & Hy & Hz & _).
      unfold base_cells. rewrite in_flat_map. exists z. rewrite in_zseq. split; auto.
      rewrite in_flat_map. exists y. rewrite in_zseq. split; auto.
      apply in_map_iff. exists x. rewrite in_zseq. auto.
    + intros Hc. unfold base_cells in Hc. rewrite in_flat_map in Hc. destruct Hc as (z & Hz & Hc). rewrite in_zseq in Hz.
      rewrite in_flat_map in Hc. destruct Hc as (y & Hy & Hc). rewrite in_zseq in Hy.
      rewrite in_map_iff in Hc. destruct Hc as (x & <- & Hx). rewrite in_zseq in Hx.
      set (idx := x + y * n + z * (n * n)).
      assert (Hidx : 0 <= idx < n * n * n) by (unfold idx; nia).
      rewrite in_flat_map. exists (idx mod workers). rewrite in_zseq. split; [apply Z.mod_pos_bound; lia|].
      unfold worker_list. apply in_map_iff. exists (idx / workers). rewrite in_zseq.
      assert (E : idx mod workers + idx / workers * workers = idx) by (pose proof (Z.div_mod idx workers); lia).
      rewrite E. split.
      * unfold cell_of. unfold idx.
        replace (x + y * n + z * (n * n)) with (x + (y + z * n) * n) by lia.
        rewrite Z.mod_add, Z.mod_small by lia. rewrite <- Z.div_div by lia. rewrite Z.div_add, (Z.div_small x) by lia.
        rewrite Z.add_0_l, Z.mod_add, (Z.mod_small y) by lia. rewrite Z.div_add, (Z.div_small y) by lia. now rewrite ?Z.add_0_l.
      * split; [apply Z.div_pos; lia|]. apply rounds_spec; [lia|apply Z.div_pos; lia|rewrite E; lia].
Qed.

Lemma base_cells_tile n skip c : 0 < n -> 0 < skip -> in_box c (0, 0, 0) (n * skip, n * skip, n * skip) ->
  exists! b, In b (base_cells n skip) /\ inside_cube skip b c.
Proof.
  destruct c as [[x y] z]. unfold inside_cube, in_box, in_range. cbn. intros Hn Hs (Hx & Hy & Hz).
  assert (K : forall a, 0 <= a < 0 + n * skip -> 0 <= a / skip < n /\ a / skip * skip <= a < a / skip * skip + skip).
  { intros a Ha. split; [split; [apply Z.div_pos; lia|apply Z.div_lt_upper_bound; lia]|].
    pose proof (Z.div_mod a skip ltac:(lia)). pose proof (Z.mod_pos_bound a skip Hs). lia. }
  exists (x / skip * skip, y / skip * skip, z / skip * skip). split.
  - split; [|split; [apply K; auto|split; apply K; auto]].
    unfold base_cells. rewrite in_flat_map. exists (z / skip). rewrite in_zseq. split; [apply K; auto|].
    rewrite in_flat_map. exists (y / skip). rewrite in_zseq. split; [apply K; auto|].
    apply in_map_iff. exists (x / skip). rewrite in_zseq. split; [auto|apply K; auto].
  - intros [[a b] d] [Hb HI]. cbn in HI. destruct HI as (H1 & H2 & H3). unfold base_cells in Hb.
    rewrite in_flat_map in Hb. destruct Hb as (z' & _ & Hb).
    rewrite in_flat_map in Hb. destruct Hb as (y' & _ & Hb).
    rewrite in_map_iff in Hb. destruct Hb as (x' & E & _). injection E as <- <- <-.
    assert (x / skip = x') by (symmetry; apply (Z.div_unique_pos x skip x' (x - x' * skip)); lia).
    assert (y / skip = y') by (symmetry; apply (Z.div_unique_pos y skip y' (y - y' * skip)); lia).
    assert (z / skip = z') by (symmetry; apply (Z.div_unique_pos z skip z' (z - z' * skip)); lia).
    subst. reflexivity.
Qed.

Section Run.
Context {D F : Type} {ND : Num D} {NF : Num F} (up : F -> D).

Lemma worker_run_list (mc : mcarlo F) reqVel countWidth workers id b xs vs :
  0 < mc_skip mc <= mc_seg mc -> 0 <= id < workers ->
  worker_run up mc reqVel countWidth workers id b xs vs =
  bind (each (worker_list (mc_seg mc / mc_skip mc) (mc_skip mc) workers id)
        (fun c s => for_ 0 6 (fun dir s =>
          mc_tetra up mc reqVel xs vs (scaled_val mc reqVel (pt_val reqVel (mc_cells mc) countWidth))
            (lattice_index (mc_seg mc + 1) c) dir s) s)
        (MS b 0 tetra_zero tetra_zero)) (fun s => Ok (ms_buf s)).
Proof.
  intros Hs Hid. unfold worker_run, seg_len, mc_interpolate, quot.
  replace (mc_skip mc =? 0) with false by lia. cbn [bind].
  rewrite Z.quot_div_nonneg by lia. set (n := mc_seg mc / mc_skip mc).
  assert (Hn : 0 < n) by (apply Z.div_str_pos; lia).
  rewrite stride_for by lia.
  rewrite (for_each (fun t => id + t * workers)
            (fun idx s => mc_cell up mc reqVel xs vs (scaled_val mc reqVel (pt_val reqVel (mc_cells mc) countWidth)) idx s))
    by (apply rounds_nonneg; lia).
  unfold worker_list. rewrite !each_map. f_equal. apply each_ext. intros t s Ht. apply in_zseq in Ht.
  unfold mc_cell, quot. replace (mc_skip mc =? 0) with false by lia. cbn [bind].
  rewrite Z.quot_div_nonneg by lia. fold n. rewrite coords_ok by nia. cbn [bind cell_of v0 v1 v2].
  unfold lattice_index, index.
  match goal with |- for_ 0 6 (fun dir s => mc_tetra _ _ _ _ _ _ ?a _ _) _ = for_ 0 6 (fun dir s => mc_tetra _ _ _ _ _ _ ?b _ _) _ =>
    replace a with b by ring end. reflexivity.
Qed.

Theorem split_thm (mc : mcarlo F) reqVel countWidth workers :
  0 < mc_skip mc <= mc_seg mc -> 1 <= workers ->
  let n := mc_seg mc / mc_skip mc in
  exists work : Z -> list cell,
    Permutation (flat_map work (zseq workers)) (base_cells n (mc_skip mc)) /\
    (forall id b xs vs, 0 <= id < workers ->
      worker_run up mc reqVel countWidth workers id b xs vs =
      bind (each (work id)
        (fun c s => for_ 0 6 (fun dir s =>
          mc_tetra up mc reqVel xs vs (scaled_val mc reqVel (pt_val reqVel (mc_cells mc) countWidth))
            (lattice_index (mc_seg mc + 1) c) dir s) s)
        (MS b 0 tetra_zero tetra_zero)) (fun s => Ok (ms_buf s))) /\
    (mc_seg mc mod mc_skip mc = 0 -> forall c, in_box c (0, 0, 0) (mc_seg mc, mc_seg mc, mc_seg mc) ->
      exists! b, In b (base_cells n (mc_skip mc)) /\ inside_cube (mc_skip mc) b c).
Proof.
  intros Hs Hw n. assert (Hn : 0 < n) by (apply Z.div_str_pos; lia).
  exists (worker_list n (mc_skip mc) workers). split; [|split].
  - apply workers_partition; lia.
  - intros id b xs vs Hid. apply worker_run_list; auto.
  - intros HD c Hc. apply base_cells_tile; [lia|lia|].
    assert (E : mc_seg mc = n * mc_skip mc) by (unfold n; pose proof (Z.div_mod (mc_seg mc) (mc_skip mc)); lia).
    rewrite E in Hc at 1 2 3. exact Hc.
Qed.
End Run.
