(** read_halo.go: the whole program *)
From Coq Require Import ZArith List Bool Lia Reals Lra Psatz ZifyBool ZifyNat Permutation.
From Flocq Require Import Core.Raux.
From Verif Require Import Base.Res Base.ResFacts Base.Num Model.Cosmo Model.Catalog Model.Halo Model.ReadHalo
  Spec.Geometry Spec.Work Spec.Catalogs Spec.Halos Proof.WorkP Proof.HaloP Proof.HaloW Proof.CatalogP Proof.ReadHaloP.
Import ListNotations.
Open Scope R_scope.
Local Notation realK := (CC PI gravity megaparsec solar_mass (177653 / 1000)).

Lemma zn_zseq n k : (0 <= k < n)%Z -> zn 0%Z (zseq n) k = k.
Proof. intros H. unfold zn, zseq. rewrite (map_nth Z.of_nat (seq 0 (Z.to_nat n)) 0%nat (Z.to_nat k) : nth _ _ 0%Z = _). rewrite seq_nth by lia. lia. Qed.

(** ** Lengths of the grid *)
Lemma new_grid_next {D} {ND : Num D} c (W : D) n g : (0 <= n)%Z -> new_grid c W n = Ok g -> zlen (gr_next g) = n.
Proof.
  unfold new_grid. intros Hn. destruct (_ || _)%bool; [discriminate|]. intros E; inversion E. cbn [gr_next].
  rewrite zlen_repeat. lia.
Qed.

Lemma bind_ok {A B} (r : res A) (f : A -> res B) b : bind r f = Ok b -> exists a, r = Ok a /\ f a = Ok b.
Proof. destruct r; cbn; intros H; try discriminate. eauto. Qed.

Lemma set_len {A} (l l' : list A) i v : set l i v = Ok l' -> zlen l' = zlen l.
Proof.
  intros H. unfold set in H. destruct (_ || _)%bool; [discriminate|]. inversion H. now rewrite zlen_upd.
Qed.

Lemma for_keep {S} (P : S -> Prop) lo hi (body : Z -> S -> res S) s s' :
  (forall i s s', P s -> body i s = Ok s' -> P s') -> P s -> for_ lo hi body s = Ok s' -> P s'.
Proof.
  intros HB HP. destruct (Z_le_gt_dec lo hi) as [Hle|]; [|rewrite for_empty by lia; intros E; inversion E; subst; exact HP].
  revert s' s HP. assert (G : forall k lo s s', (Z.to_nat (hi - lo) = k)%nat -> (lo <= hi)%Z -> P s -> for_ lo hi body s = Ok s' -> P s').
  { clear - HB. induction k; intros lo s s' Hk Hle HP.
    - rewrite for_empty by lia. intros E; inversion E; subst; exact HP.
    - rewrite for_step by lia. intros H. apply bind_ok in H. destruct H as (s1 & H1 & H2).
      apply (IHk (lo + 1)%Z s1); [lia|lia| |exact H2]. eapply HB; eassumption. }
  intros s' s HP. apply (G (Z.to_nat (hi - lo)) lo s s' eq_refl Hle HP).
Qed.

Lemma insert_next {D} {ND : Num D} (g g' : hgrid D) xs ys zs : insert g xs ys zs = Ok g' -> zlen (gr_next g') = zlen (gr_next g).
Proof.
  unfold insert. apply (for_keep (fun s => zlen (gr_next s) = zlen (gr_next g))); [|reflexivity].
  intros i s s' Hs H. unfold insert1 in H.
  apply bind_ok in H; destruct H as (x & _ & H). apply bind_ok in H; destruct H as (y & _ & H). apply bind_ok in H; destruct H as (z & _ & H).
  apply bind_ok in H; destruct H as (h & _ & H). apply bind_ok in H; destruct H as (nx & E & H). apply bind_ok in H; destruct H as (hd & _ & H).
  inversion H. cbn [gr_next]. rewrite (set_len _ _ _ _ E). exact Hs.
Qed.

(** ** The order of the rows *)
Lemma swaps_order {D} (d : D) n l (hs : halos D) : (0 <= n)%Z -> same_length n hs ->
  Forall (fun '(i, j) => (0 <= i < n)%Z /\ (0 <= j < n)%Z) l ->
  exists hs' order, halos_swaps hs l = Ok hs' /\ Permutation order (zseq n) /\
    hs_ids hs' = map (zn 0%Z (hs_ids hs)) order /\ hs_xs hs' = map (zn d (hs_xs hs)) order /\ hs_ys hs' = map (zn d (hs_ys hs)) order /\
    hs_zs hs' = map (zn d (hs_zs hs)) order /\ hs_m200ms hs' = map (zn d (hs_m200ms hs)) order /\
    hs_r200ms hs' = map (zn d (hs_r200ms hs)) order /\ hs_rPrints hs' = map (zn d (hs_rPrints hs)) order.
Proof.
  intros Hn HL HF. destruct (swaps_rows d n l hs HL HF) as (hs' & E & L' & P).
  rewrite (rows_eq d n hs) in P. apply Permutation_map_inv in P. destruct P as (order & EQ & P). fold (zseq n) in P.
  exists hs', order. split; [exact E|]. split; [symmetry; exact P|].
  assert (LO : zlen order = n) by (unfold zlen; rewrite <- (Permutation_length P); fold (zlen (zseq n)); apply zlen_zseq; lia).
  rewrite rows_eq in EQ. fold (zseq n) in EQ.
  assert (K : forall k, (0 <= k < n)%Z -> zn 0%Z (hs_ids hs') k = zn 0%Z (hs_ids hs) (zn 0%Z order k) /\
     map (fun c => zn d c k) (columns hs') = map (fun c => zn d c (zn 0%Z order k)) (columns hs)).
  { intros k Hk. assert (F := f_equal (fun l => zn (0%Z, []) l k) EQ). cbn beta in F.
    rewrite (zn_map _ 0%Z) in F by (rewrite zlen_zseq; lia). rewrite (zn_map _ 0%Z) in F by lia.
    rewrite zn_zseq in F by lia. split; [exact (f_equal fst F)|exact (f_equal snd F)]. }
  destruct L' as [I0 IC]. unfold columns in *.
  repeat match goal with H : Forall _ (_ :: _) |- _ => pose proof (Forall_inv H); apply Forall_inv_tail in H end. cbn beta in *.
  assert (C : forall (c c' : list D), zlen c' = n -> (forall k, (0 <= k < n)%Z -> zn d c' k = zn d c (zn 0%Z order k)) -> c' = map (zn d c) order).
  { intros c c' HC HK. apply (list_ext d); [rewrite zlen_map; lia|]. intros i Hi. rewrite (zn_map _ 0%Z) by lia. apply HK. lia. }
  cbn [map] in K.
  split. { apply (list_ext 0%Z); [rewrite zlen_map; lia|]. intros i Hi. rewrite (zn_map _ 0%Z) by lia. apply K. lia. }
  repeat split; apply C; try lia; intros k Hk; destruct (K k Hk) as [_ F]; congruence.
Qed.

(** ** The whole program *)
Section Main.
Variables (swaps : list (Z * Z)) (t : Z) (c : cosmo_header R) (table : Z -> list R) (L : R) (targets : list Z).
Variables (n : Z) (rad prad : Z -> R).
Hypothesis Ht : (0 <= t <= 4)%Z.
Hypothesis Ho : 0 < ch_omegaM c.
Hypothesis Hl : 0 <= ch_omegaL c.
Hypothesis Hz : -1 < ch_z c.
Hypothesis Hh : ch_h100 c <> 0.
Hypothesis HL : 0 < L.
Hypothesis Hn : (1 <= n)%Z.
Let mass2 x := sphere_mass 2 (ch_omegaM c) (ch_omegaL c) (ch_z c) x.
Let pos i : point := (zn 0 (table 17%Z) i, zn 0 (table 18%Z) i, zn 0 (table 19%Z) i).
Let ident i := Ztrunc (zn 0 (table 1%Z) i).
Hypothesis Hlen : forall k, In k [1; 17; 18; 19; 36; table_column t]%Z -> zlen (table k) = n.
Hypothesis Hrad : forall i, (0 <= i < n)%Z -> 0 < rad i /\ zn 0 (table 36%Z) i = mass2 (rad i).
Hypothesis Hprad : forall i, (0 <= i < n)%Z -> 0 < prad i /\ zn 0 (table (table_column t)) i = if (t =? 0)%Z then 1000 * prad i else mass2 (prad i).
Hypothesis Hcube : forall i, (0 <= i < n)%Z -> in_cube L (pos i).
Hypothesis Hin : forall i j, (0 <= i < n)%Z -> (0 <= j < n)%Z -> stays_inside3 L (3 * (rad i + rad j)) (pos i).
Hypothesis Hsw : Forall (fun '(i, j) => (0 <= i < n)%Z /\ (0 <= j < n)%Z) swaps.
Hypothesis Hsort : forall hs hs', hs_r200ms hs = map rad (zseq n) -> halos_swaps hs swaps = Ok hs' ->
  forall i j, (0 <= i < j)%Z -> (j < n)%Z -> halos_less hs' i j = Ok false.
Hypothesis Htar : Forall (fun id => exists i, (0 <= i < n)%Z /\ ident i = id) targets.

Lemma cat_radii m : zlen m = n -> (forall f, (forall i, (0 <= i < n)%Z -> 0 < f i /\ zn 0 m i = mass2 (f i)) ->
  radius_of sqrt Rpower realK R200m c m (repeat (nofZ 0) (List.length m)) = Ok (map f (zseq n))).
Proof.
  clear Hprad Hrad Hcube Hin Hsw Hsort Htar Hlen Ht HL.
  intros Hm f Hf. change R200m with 2%Z.
  rewrite (radius_of_eq 2 c) by (try assumption; try lia; unfold zlen; now rewrite repeat_length). f_equal.
  apply (list_ext 0); [rewrite !zlen_map, zlen_zseq; lia|]. intros i Hi. rewrite zlen_map in Hi.
  rewrite (zn_map _ 0) by lia. rewrite (zn_map _ 0%Z) by (rewrite zlen_zseq; lia). rewrite zn_zseq by lia.
  destruct (Hf i ltac:(lia)) as [P E]. rewrite E. unfold mass2. rewrite <- mass1_eq by (try assumption; lia). apply rad_mass; try assumption; lia.
Qed.

Lemma load_ok : exists hs order, load_halos sqrt Rpower realK swaps t c table = Ok hs /\ Permutation order (zseq n) /\
  hs_ids hs = map ident order /\ hs_xs hs = map (zn 0 (table 17%Z)) order /\ hs_ys hs = map (zn 0 (table 18%Z)) order /\
  hs_zs hs = map (zn 0 (table 19%Z)) order /\ zlen (hs_m200ms hs) = n /\ hs_r200ms hs = map rad order /\ hs_rPrints hs = map prad order /\
  forall i j, (0 <= i < j)%Z -> (j < n)%Z -> rad (zn 0%Z order j) <= rad (zn 0%Z order i).
Proof.
  assert (LL : zlen (table 1%Z) = n /\ zlen (table 17%Z) = n /\ zlen (table 18%Z) = n /\ zlen (table 19%Z) = n /\ zlen (table 36%Z) = n /\ zlen (table (table_column t)) = n)
    by (repeat split; apply Hlen; cbn; tauto). destruct LL as (L1 & L17 & L18 & L19 & L36 & LC).
  unfold load_halos. assert (C1 : rockstar_column R200m = Ok 36%Z) by reflexivity. rewrite C1. cbn [bind].
  assert (C2 : rockstar_column t = Ok (table_column t)).
  { assert (J : (t = 0 \/ t = 1 \/ t = 2 \/ t = 3 \/ t = 4)%Z) by lia. destruct J as [-> | [-> | [-> | [-> | -> ]]]]; reflexivity. }
  rewrite C2. cbn [bind]. unfold catalog_radii. rewrite (cat_radii _ L36 rad Hrad). cbn [bind].
  assert (C3 : print_radii sqrt Rpower realK t c (table (table_column t)) = Ok (map prad (zseq n))).
  { unfold print_radii. destruct (Z.eqb_spec t 0) as [Et|Ht0].
    - replace (rockstar_mass t) with (Ok false) by (rewrite Et; reflexivity). cbn [bind]. f_equal. apply (list_ext 0); [rewrite !zlen_map, zlen_zseq; lia|]. intros i Hi. rewrite zlen_map in Hi.
      rewrite (zn_map _ 0) by lia. rewrite (zn_map _ 0%Z) by (rewrite zlen_zseq; lia). rewrite zn_zseq by lia.
      destruct (Hprad i ltac:(lia)) as [P E]. rewrite E. rewrite ?Et. cbn [Z.eqb ndiv nofZ RNum]. field.
    - assert (M : rockstar_mass t = Ok true).
      { assert (J : (t = 1 \/ t = 2 \/ t = 3 \/ t = 4)%Z) by lia. destruct J as [-> | [-> | [-> | -> ]]]; reflexivity. }
      rewrite M. cbn [bind]. apply cat_radii; [exact LC|]. intros i Hi. destruct (Hprad i Hi) as [P E]. split; [exact P|].
      destruct (Z.eqb_spec t 0); [contradiction|exact E]. }
  rewrite C3. cbn [bind].
  set (hs0 := HS _ _ _ _ _ _ _).
  assert (SL : same_length n hs0).
  { split; [cbn; rewrite zlen_map; lia|]. unfold columns; cbn. repeat constructor; rewrite ?zlen_map, ?zlen_zseq; lia. }
  destruct (swaps_order 0 n swaps hs0 ltac:(lia) SL Hsw) as (hs' & order & E & P & Ei & Ex & Ey & Ez & Em & Er & Ep).
  exists hs', order. split; [exact E|]. split; [exact P|].
  assert (OR : forall i, In i order -> (0 <= i < n)%Z) by (intros i Hi; apply in_zseq; apply (Permutation_in _ P); exact Hi).
  assert (LO : zlen order = n) by (unfold zlen; rewrite (Permutation_length P); fold (zlen (zseq n)); apply zlen_zseq; lia).
  assert (MR : forall f : Z -> R, map (zn 0 (map f (zseq n))) order = map f order).
  { intros f. apply map_ext_in. intros a Ha. apply OR in Ha. rewrite (zn_map _ 0%Z) by (rewrite zlen_zseq; lia). rewrite zn_zseq by lia. reflexivity. }
  split; [rewrite Ei; apply map_ext_in; intros a Ha; apply OR in Ha; cbn [hs0 hs_ids]; rewrite (zn_map _ 0) by lia; reflexivity|].
  split; [exact Ex|]. split; [exact Ey|]. split; [exact Ez|]. split; [rewrite Em, zlen_map; exact LO|].
  assert (Er' : hs_r200ms hs' = map rad order) by (rewrite Er; apply MR).
  split; [exact Er'|]. split; [rewrite Ep; apply MR|].
  intros i j Hij Hj. specialize (Hsort hs0 hs' eq_refl E i j Hij Hj). unfold halos_less in Hsort. rewrite Er' in Hsort.
  rewrite (get_ok 0) in Hsort by (rewrite zlen_map; lia). cbn [bind] in Hsort. rewrite (get_ok 0) in Hsort by (rewrite zlen_map; lia). cbn [bind] in Hsort.
  rewrite !(zn_map _ 0%Z) in Hsort by lia. cbn [nltb RNum] in Hsort. destruct (Rlt_bool_spec (rad (zn 0%Z order i)) (rad (zn 0%Z order j))); [discriminate|assumption].
Qed.

Theorem main_ok : exists order out, read_halo_main sqrt Rpower realK swaps t c table L targets = Ok out /\ Permutation order (zseq n) /\
  let o k := zn 0%Z order k in
  let meet a b := spheres_meet_periodic L (pos a) (pos b) (3 * rad a) (3 * rad b) in
  let entry k := H1 k (zn 0 (table 17%Z) (o k)) (zn 0 (table 18%Z) (o k)) (zn 0 (table 19%Z) (o k)) (prad (o k)) in
  (forall i j, (0 <= i < j)%Z -> (j < n)%Z -> rad (o j) <= rad (o i)) /\
  Forall2 (fun id w => exists k hh ss, (0 <= k < n)%Z /\ ident (o k) = id /\ (forall m, (0 <= m < k)%Z -> ident (o m) <> id) /\
    ascending hh /\ (forall j, In j hh <-> (0 <= j < k)%Z /\ meet (o k) (o j)) /\
    ascending ss /\ (forall j, In j ss <-> (k < j < n)%Z /\ meet (o k) (o j)) /\
    o_hosts w = zlen hh /\ o_subhalos w = zlen ss /\ o_halo w = entry k /\ o_intrs w = map entry ss /\
    snd (o_settings w) = 3 * prad (o k) /\
    fst (o_settings w) = Z.max 20 (Zfloor (1000 * (L / (18 * prad (o k))) ^ 3 * (4 / 5) ^ 3))) targets out.
Proof.
  destruct load_ok as (hs & order & E & P & Ei & Ex & Ey & Ez & Lm & Er & Ep & Hdesc).
  assert (OR : forall i, In i order -> (0 <= i < n)%Z) by (intros i Hi; apply in_zseq; apply (Permutation_in _ P); exact Hi).
  assert (LO : zlen order = n) by (unfold zlen; rewrite (Permutation_length P); fold (zlen (zseq n)); apply zlen_zseq; lia).
  assert (OK : forall k, (0 <= k < n)%Z -> (0 <= zn 0%Z order k < n)%Z) by (intros k Hk; apply OR; apply zn_In; lia).
  assert (ZX : forall f : Z -> R, zlen (map f order) = n) by (intros; rewrite zlen_map; exact LO).
  assert (VX : forall (f : Z -> R) k, (0 <= k < n)%Z -> zn 0 (map f order) k = f (zn 0%Z order k)) by (intros; rewrite (zn_map _ 0%Z) by lia; reflexivity).
  exists order. unfold read_halo_main. rewrite E. cbn [bind]. rewrite Ex, Ey, Ez, Er, Ei, ZX.
  destruct (finder_inside L 3 150 n (map (zn 0 (table 17%Z)) order) (map (zn 0 (table 18%Z)) order) (map (zn 0 (table 19%Z)) order) (map rad order)
     HL ltac:(lra) ltac:(lia) Hn (ZX _) (ZX _) (ZX _) (ZX _)) as (g0 & g & sf & G1 & G2 & G3 & G4).
  { intros i Hi. cbn beta zeta. rewrite !VX by exact Hi. split; [apply (Hcube _ (OK i Hi))|]. left. apply Hrad. apply OK, Hi. }
  { intros i j Hi Hj. rewrite !VX by lia. apply Hin; apply OK; lia. }
  rewrite G1. cbn [bind]. rewrite G2. cbn [bind].
  assert (GN : zlen (gr_next g) = n) by (rewrite (insert_next _ _ _ _ _ G2); apply (new_grid_next 150 L n g0 ltac:(lia) G1)).
  rewrite GN. cbn [nofZ RNum]. rewrite G3. cbn [bind].
  set (idxs := target_indexes (map ident order) targets).
  set (w := fun ih => match write_halo Rpower L hs sf ih with Ok x => x | _ => OUT 0%Z 0%Z (0%Z, 0) (H1 0%Z 0 0 0 0) [] end).
  assert (TI : Forall2 (fun id ih => (0 <= ih < n)%Z /\ ident (zn 0%Z order ih) = id /\ forall m, (0 <= m < ih)%Z -> ident (zn 0%Z order m) <> id) targets idxs).
  { unfold idxs, target_indexes. clear - Htar P LO Hn. induction Htar as [|id l Hid _ IH]; cbn [map]; [constructor|]. constructor; [|apply IH; exact (Forall_inv_tail Htar)].
    destruct Hid as (i & Hi & <-). assert (J : In (ident i) (map ident order)).
    { apply in_map. apply (Permutation_in _ (Permutation_sym P)). apply in_zseq. exact Hi. }
    destruct (target_found _ _ 0 J) as (k & -> & Hk & V & F). rewrite zlen_map in Hk. cbn [Z.add]. split; [lia|].
    rewrite (zn_map _ 0%Z) in V by lia. split; [exact V|]. intros m Hm. specialize (F m Hm). rewrite (zn_map _ 0%Z) in F by lia. exact F. }
  assert (WH : forall ih, (0 <= ih < n)%Z -> exists hh ss, write_halo Rpower L hs sf ih = Ok (w ih) /\
    ascending hh /\ (forall j, In j hh <-> (0 <= j < ih)%Z /\ spheres_meet_periodic L (pos (zn 0%Z order ih)) (pos (zn 0%Z order j)) (3 * rad (zn 0%Z order ih)) (3 * rad (zn 0%Z order j))) /\
    ascending ss /\ (forall j, In j ss <-> (ih < j < n)%Z /\ spheres_meet_periodic L (pos (zn 0%Z order ih)) (pos (zn 0%Z order j)) (3 * rad (zn 0%Z order ih)) (3 * rad (zn 0%Z order j))) /\
    o_hosts (w ih) = zlen hh /\ o_subhalos (w ih) = zlen ss /\
    o_halo (w ih) = H1 ih (zn 0 (table 17%Z) (zn 0%Z order ih)) (zn 0 (table 18%Z) (zn 0%Z order ih)) (zn 0 (table 19%Z) (zn 0%Z order ih)) (prad (zn 0%Z order ih)) /\
    o_intrs (w ih) = map (fun k => H1 k (zn 0 (table 17%Z) (zn 0%Z order k)) (zn 0 (table 18%Z) (zn 0%Z order k)) (zn 0 (table 19%Z) (zn 0%Z order k)) (prad (zn 0%Z order k))) ss /\
    snd (o_settings (w ih)) = 3 * prad (zn 0%Z order ih) /\
    fst (o_settings (w ih)) = Z.max 20 (Zfloor (1000 * (L / (18 * prad (zn 0%Z order ih))) ^ 3 * (4 / 5) ^ 3))).
  { intros ih Hih. destruct (G4 ih Hih) as (hh & ss & _ & _ & S1 & _ & S2 & S3 & As & IH & IS). cbn beta in IH, IS.
    exists hh, ss.
    assert (Hss : forall j, In j ss -> (0 <= j < n)%Z) by (intros j Hj; apply IS in Hj; lia).
    assert (WE : write_halo Rpower L hs sf ih = Ok (OUT (zlen ss) (zlen hh) (render_settings Rpower L (H1 ih (zn 0 (table 17%Z) (zn 0%Z order ih)) (zn 0 (table 18%Z) (zn 0%Z order ih)) (zn 0 (table 19%Z) (zn 0%Z order ih)) (prad (zn 0%Z order ih))))
       (H1 ih (zn 0 (table 17%Z) (zn 0%Z order ih)) (zn 0 (table 18%Z) (zn 0%Z order ih)) (zn 0 (table 19%Z) (zn 0%Z order ih)) (prad (zn 0%Z order ih)))
       (map (fun k => H1 k (zn 0 (table 17%Z) (zn 0%Z order k)) (zn 0 (table 18%Z) (zn 0%Z order k)) (zn 0 (table 19%Z) (zn 0%Z order k)) (prad (zn 0%Z order k))) ss))).
    { unfold write_halo. rewrite (get_ok 0) by lia. cbn [bind]. rewrite S3. cbn [bind]. rewrite S2. cbn [bind]. rewrite Ex, Ey, Ez, Ep.
      rewrite (new_halo_ok 0) by (rewrite ?ZX; lia). cbn [bind]. rewrite S1. cbn [bind].
      rewrite (new_halos_ok 0) by (rewrite ?ZX; try lia; apply Forall_forall; exact Hss). cbn [bind].
      rewrite !VX by lia. do 2 f_equal. apply map_ext_in. intros k Hk. apply Hss in Hk. rewrite !VX by lia. reflexivity. }
    assert (WW := WE). unfold w. rewrite WE. cbn [o_hosts o_subhalos o_halo o_intrs o_settings].
    split; [reflexivity|].
    assert (A2 : ascending hh /\ ascending ss).
    { clear - As. unfold ascending in *. induction hh as [|a hh IH]; cbn in As; [split; [constructor|exact As]|]. inversion As; subst.
      destruct (IH H1) as [A B]. split; [constructor; [exact A|]|exact B]. apply Forall_app in H2. apply H2. }
    split; [apply A2|]. split.
    { intros j. rewrite IH. split; intros [Hj K]; (split; [exact Hj|]); rewrite !VX in * by lia; exact K. }
    split; [apply A2|]. split.
    { intros j. rewrite IS. split; intros [Hj K]; (split; [exact Hj|]); rewrite !VX in * by lia; exact K. }
    repeat (split; [reflexivity|]). unfold render_settings. cbn [h_r fst snd nmul nofZ RNum]. split; [ring|].
    destruct (Hprad _ (OK _ Hih)) as [Pp _]. set (p := prad (zn 0%Z order ih)) in *.
    assert (V : 1000 * Rpower (L / (3 * (2 * (p * 3)))) 3 * Rpower (400 / 500) 3 = 1000 * (L / (18 * p)) ^ 3 * (4 / 5) ^ 3).
    { replace (3 * (2 * (p * 3))) with (18 * p) by ring. replace (400 / 500) with (4 / 5) by lra.
      assert (A3 : forall x, 0 < x -> Rpower x 3 = x ^ 3) by (intros x Hx; rewrite <- Rpower_pow by exact Hx; f_equal; cbn; lra).
      rewrite !A3; [reflexivity|lra|]. apply Rdiv_lt_0_compat; lra. }
    unfold particles. cbn [nmul ndiv nofZ ntrunc RNum]. rewrite V.
    assert (Q : 0 <= 1000 * (L / (18 * p)) ^ 3 * (4 / 5) ^ 3).
    { assert (0 < (L / (18 * p)) ^ 3) by (apply pow_lt, Rdiv_lt_0_compat; lra). assert (0 < (4 / 5) ^ 3) by (apply pow_lt; lra).
      apply Rmult_le_pos; lra. }
    rewrite Ztrunc_floor by exact Q. destruct (Z.ltb_spec (Zfloor (1000 * (L / (18 * p)) ^ 3 * (4 / 5) ^ 3)) 20); lia. }
  assert (IR : forall i, (0 <= i < zlen idxs)%Z -> (0 <= zn 0%Z idxs i < n)%Z).
  { intros i Hi. assert (LT : length targets = length idxs) by (clear - TI; induction TI; cbn; congruence).
    assert (F := Forall2_nth _ 0%Z 0%Z _ _ TI (Z.to_nat i)). cbn beta in F. apply F. unfold zlen in Hi. lia. }
  exists (map w idxs). split.
  { rewrite (tabulate_ok _ (fun i => w (zn 0%Z idxs i))).
    - f_equal. apply (list_ext (w 0%Z)); [rewrite zlen_ztab, zlen_map by (unfold zlen; lia); reflexivity|].
      intros i Hi. rewrite zlen_ztab in Hi by (unfold zlen; lia). rewrite zn_ztab by lia. rewrite (zn_map _ 0%Z) by lia. reflexivity.
    - unfold zlen; lia.
    - intros k Hk. rewrite (get_ok 0%Z) by lia. cbn [bind]. destruct (WH _ (IR k Hk)) as (hh & ss & W & _). exact W. }
  split; [exact P|]. cbn zeta. split; [exact Hdesc|].
  clearbody idxs. clear - TI WH. induction TI as [|id ih l l' (H1 & H2 & H3) _ IH]; cbn [map]; [constructor|]. constructor; [|exact IH].
  destruct (WH ih H1) as (hh & ss & _ & R). exists ih, hh, ss. split; [exact H1|]. split; [exact H2|]. split; [exact H3|exact R].
Qed.
End Main.

Lemma targets_found ids ts : Forall (fun t => In t ids) ts ->
  Forall2 (fun t i => (0 <= i < zlen ids)%Z /\ zn 0%Z ids i = t /\ forall m, (0 <= m < i)%Z -> zn 0%Z ids m <> t) ts (target_indexes ids ts).
Proof.
  unfold target_indexes. induction 1 as [|t ts H _ IH]; cbn [map]; constructor; [|exact IH].
  destruct (target_found ids t 0 H) as (i & -> & R). exact R.
Qed.

Lemma targets_missing ids t : ~ In t ids -> target_indexes ids [t] = [0%Z].
Proof. intros H. unfold target_indexes. cbn [map]. now rewrite target_missing. Qed.

(** One swap that sorts two rows. *)
Lemma sorting_swap (rad : Z -> R) : rad 0%Z <= rad 1%Z -> forall hs hs', hs_r200ms hs = map rad (zseq 2) -> halos_swaps hs [(0, 1)]%Z = Ok hs' ->
  forall i j, (0 <= i < j)%Z -> (j < 2)%Z -> halos_less hs' i j = Ok false.
Proof.
  intros Hr hs hs' E H i j Hi Hj. assert (i = 0%Z) by lia. assert (j = 1%Z) by lia. subst i j.
  cbn [halos_swaps] in H. apply bind_ok in H. destruct H as (h1 & H & K). inversion K; subst h1; clear K. unfold halos_swap in H.
  rewrite E in H. change (map rad (zseq 2)) with [rad 0%Z; rad 1%Z] in H.
  apply bind_ok in H. destruct H as (l1 & _ & H). apply bind_ok in H. destruct H as (l2 & E2 & H).
  destruct (exchange_ok 0 [rad 0%Z; rad 1%Z] 0 1) as (l' & E' & Ln & V); [cbn; lia|cbn; lia|].
  rewrite E' in E2. inversion E2; subst l2; clear E2.
  do 5 (apply bind_ok in H; destruct H as (? & _ & H)). inversion H. unfold halos_less. cbn [hs_r200ms]. change (zlen [rad 0%Z; rad 1%Z]) with 2%Z in *.
  rewrite (get_ok 0) by lia. cbn [bind]. rewrite (get_ok 0) by lia. cbn [bind]. rewrite !V by lia.
  change (Ok (Rlt_bool (rad 1%Z) (rad 0%Z)) = Ok false). destruct (Rlt_bool_spec (rad 1%Z) (rad 0%Z)); [lra|reflexivity].
Qed.
