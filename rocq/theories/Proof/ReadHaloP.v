(** read_halo.go *)
From Coq Require Import ZArith List Bool Lia Reals Lra Psatz ZifyBool ZifyNat Permutation.
From Flocq Require Import Core.Raux.
From Verif Require Import Base.Res Base.ResFacts Base.Num Model.Cosmo Model.Catalog Model.ReadHalo Spec.Catalogs Proof.CatalogP.
Import ListNotations.
Open Scope Z_scope.
Open Scope res_scope.

Lemma exchange_ok {A} (d : A) (l : list A) i j : 0 <= i < zlen l -> 0 <= j < zlen l ->
  exists l', swap l i j = Ok l' /\ zlen l' = zlen l /\
    forall k, 0 <= k < zlen l -> zn d l' k = zn d l (if k =? i then j else if k =? j then i else k).
Proof.
  intros Hi Hj. unfold swap. rewrite (get_ok d) by lia. cbn [bind]. rewrite (get_ok d) by lia. cbn [bind].
  rewrite set_ok by lia. cbn [bind]. rewrite set_ok by (rewrite zlen_upd; lia).
  eexists. split; [reflexivity|]. rewrite !zlen_upd. split; [reflexivity|].
  intros k Hk. destruct (Z.eqb_spec k i) as [-> |Ni].
  - destruct (Z.eq_dec i j) as [-> |Nij].
    + rewrite zn_upd_eq by (rewrite zlen_upd; lia). reflexivity.
    + rewrite zn_upd_neq by (rewrite ?zlen_upd; lia). rewrite zn_upd_eq by lia. reflexivity.
  - destruct (Z.eqb_spec k j) as [-> |Nj].
    + rewrite zn_upd_eq by (rewrite zlen_upd; lia). reflexivity.
    + rewrite zn_upd_neq by (rewrite ?zlen_upd; lia). rewrite zn_upd_neq by lia. reflexivity.
Qed.

(** Renaming the indexes by an exchange permutes a list made from them. *)
Lemma perm_exchange {A} (f : Z -> A) n i j : 0 <= i < n -> 0 <= j < n ->
  Permutation (map (fun k => f (if k =? i then j else if k =? j then i else k)) (map Z.of_nat (seq 0 (Z.to_nat n))))
              (map f (map Z.of_nat (seq 0 (Z.to_nat n)))).
Proof.
  intros Hi Hj. set (s := fun k => if k =? i then j else if k =? j then i else k).
  rewrite <- (map_map s f). apply Permutation_map.
  assert (ND : NoDup (map Z.of_nat (seq 0 (Z.to_nat n)))).
  { apply FinFun.Injective_map_NoDup; [intros a b; lia|apply seq_NoDup]. }
  assert (Inj : forall a b, s a = s b -> a = b). { unfold s. intros a b. destruct (Z.eqb_spec a i), (Z.eqb_spec b i), (Z.eqb_spec a j), (Z.eqb_spec b j); lia. }
  apply NoDup_Permutation; [apply FinFun.Injective_map_NoDup; assumption|exact ND|].
  assert (InS : forall k, In k (map Z.of_nat (seq 0 (Z.to_nat n))) <-> 0 <= k < n).
  { intros k. rewrite in_map_iff. split.
    - intros (m & <- & Hm). apply in_seq in Hm. lia.
    - intros Hk. exists (Z.to_nat k). split; [lia|]. apply in_seq. lia. }
  intros k. rewrite in_map_iff, InS. split.
  - intros (m & <- & Hm). apply InS in Hm. unfold s. destruct (Z.eqb_spec m i); [lia|]. destruct (Z.eqb_spec m j); lia.
  - intros Hk. exists (s k). split.
    + unfold s. destruct (Z.eqb_spec k i) as [-> |].
      * destruct (Z.eqb_spec j i); [lia|]. rewrite Z.eqb_refl. reflexivity.
      * destruct (Z.eqb_spec k j) as [-> |]; [rewrite Z.eqb_refl; reflexivity|]. destruct (Z.eqb_spec k i); [lia|]. destruct (Z.eqb_spec k j); lia.
    + apply InS. unfold s. destruct (Z.eqb_spec k i); [lia|]. destruct (Z.eqb_spec k j); lia.
Qed.

Section Rows.
Context {D : Type} {ND : Num D}.
Variable (d : D).

Definition columns (hs : halos D) : list (list D) := [hs_xs hs; hs_ys hs; hs_zs hs; hs_m200ms hs; hs_r200ms hs; hs_rPrints hs].
Definition rows (n : Z) (hs : halos D) : list (Z * list D) := table_rows 0 d n (hs_ids hs) (columns hs).
Definition same_length (n : Z) (hs : halos D) : Prop := zlen (hs_ids hs) = n /\ Forall (fun c : list D => zlen c = n) (columns hs).

Lemma rows_eq n hs : rows n hs = map (fun k => (zn 0 (hs_ids hs) k, map (fun c => zn d c k) (columns hs))) (map Z.of_nat (seq 0 (Z.to_nat n))).
Proof.
  unfold rows, table_rows. rewrite map_map. apply map_ext. intros a. unfold zn. rewrite Nat2Z.id. reflexivity.
Qed.

Lemma swap_rows n hs i j : same_length n hs -> 0 <= i < n -> 0 <= j < n ->
  exists hs', halos_swap hs i j = Ok hs' /\ same_length n hs' /\ Permutation (rows n hs') (rows n hs).
Proof.
  intros [L0 LC] Hi Hj. unfold columns in LC.
  repeat match goal with H : Forall _ (_ :: _) |- _ => inversion H; clear H; subst end.
  unfold halos_swap.
  destruct (exchange_ok 0 (hs_ids hs) i j) as (l1 & E1 & Z1 & V1); [lia|lia|].
  destruct (exchange_ok d (hs_r200ms hs) i j) as (l2 & E2 & Z2 & V2); [lia|lia|].
  destruct (exchange_ok d (hs_m200ms hs) i j) as (l3 & E3 & Z3 & V3); [lia|lia|].
  destruct (exchange_ok d (hs_rPrints hs) i j) as (l4 & E4 & Z4 & V4); [lia|lia|].
  destruct (exchange_ok d (hs_xs hs) i j) as (l5 & E5 & Z5 & V5); [lia|lia|].
  destruct (exchange_ok d (hs_ys hs) i j) as (l6 & E6 & Z6 & V6); [lia|lia|].
  destruct (exchange_ok d (hs_zs hs) i j) as (l7 & E7 & Z7 & V7); [lia|lia|].
  rewrite E1, E2, E3, E4, E5, E6, E7. cbn [bind]. eexists. split; [reflexivity|].
  split; [split; [cbn; lia|repeat constructor; cbn; lia]|].
  rewrite !rows_eq. unfold columns. cbn [hs_ids hs_xs hs_ys hs_zs hs_m200ms hs_r200ms hs_rPrints map].
  eapply Permutation_trans; [|apply (perm_exchange (fun k => (zn 0 (hs_ids hs) k, _)) _ i j Hi Hj)].
  apply Permutation_refl'. apply map_ext_in. intros k Hk. apply in_map_iff in Hk. destruct Hk as (m & <- & Hm). apply in_seq in Hm.
  rewrite V1, V2, V3, V4, V5, V6, V7 by lia. reflexivity.
Qed.

Theorem swaps_rows n : forall l hs, same_length n hs -> Forall (fun '(i, j) => 0 <= i < n /\ 0 <= j < n) l ->
  exists hs', halos_swaps hs l = Ok hs' /\ same_length n hs' /\ Permutation (rows n hs') (rows n hs).
Proof.
  induction l as [|[i j] l IH]; intros hs HL HF.
  - exists hs. auto.
  - inversion HF as [|? ? Hij HF']; subst. destruct Hij as [Hi Hj]. cbn [halos_swaps].
    destruct (swap_rows n hs i j HL Hi Hj) as (h1 & E1 & L1 & P1). rewrite E1. cbn [bind].
    destruct (IH h1 L1 HF') as (h2 & E2 & L2 & P2). exists h2. split; [exact E2|]. split; [exact L2|].
    eapply Permutation_trans; eassumption.
Qed.

Lemma new_halo_ok ih xs ys zs rs : 0 <= ih < zlen xs -> zlen ys = zlen xs -> zlen zs = zlen xs -> zlen rs = zlen xs ->
  new_halo ih xs ys zs rs = Ok (H1 ih (zn d xs ih) (zn d ys ih) (zn d zs ih) (zn d rs ih)).
Proof.
  intros. unfold new_halo. rewrite (get_ok d) by lia. cbn [bind]. rewrite (get_ok d) by lia. cbn [bind].
  rewrite (get_ok d) by lia. cbn [bind]. rewrite (get_ok d) by lia. reflexivity.
Qed.

Lemma new_halos_ok ihs xs ys zs rs : Forall (fun ih => 0 <= ih < zlen xs) ihs -> zlen ys = zlen xs -> zlen zs = zlen xs -> zlen rs = zlen xs ->
  new_halos ihs xs ys zs rs = Ok (map (fun ih => H1 ih (zn d xs ih) (zn d ys ih) (zn d zs ih) (zn d rs ih)) ihs).
Proof.
  intros HF HY HZ HR. unfold new_halos.
  rewrite (tabulate_ok _ (fun i => let ih := zn 0 ihs i in H1 ih (zn d xs ih) (zn d ys ih) (zn d zs ih) (zn d rs ih))).
  - f_equal. apply (list_ext (H1 0 d d d d)).
    + rewrite zlen_ztab, zlen_map by (unfold zlen; lia). reflexivity.
    + intros i Hi. rewrite zlen_ztab in Hi by (unfold zlen; lia). rewrite zn_ztab by lia. rewrite (zn_map _ 0) by lia. reflexivity.
  - unfold zlen; lia.
  - intros k Hk. rewrite (get_ok 0) by lia. cbn [bind]. apply new_halo_ok; try assumption.
    rewrite Forall_forall in HF. apply HF. unfold zn. apply nth_In. unfold zlen in *. lia.
Qed.
End Rows.

Lemma target_found ids t : forall j, In t ids -> exists i, target_index ids t j = j + i /\ 0 <= i < zlen ids /\ zn 0 ids i = t /\
  forall m, 0 <= m < i -> zn 0 ids m <> t.
Proof.
  induction ids as [|id ids IH]; intros j H; [destruct H|]. cbn [target_index]. destruct (Z.eqb_spec id t) as [-> |Hne].
  - exists 0. rewrite zlen_cons. pose proof (zlen_nonneg ids). split; [lia|]. split; [lia|]. split; [reflexivity|]. lia.
  - destruct H as [H|H]; [congruence|]. destruct (IH (j + 1) H) as (i & E & Hi & V & First).
    exists (i + 1). rewrite zlen_cons. split; [lia|]. split; [lia|]. split.
    + unfold zn in *. replace (Z.to_nat (i + 1)) with (S (Z.to_nat i)) by lia. exact V.
    + intros m Hm. unfold zn in *. destruct (Z.eq_dec m 0) as [-> |]; [exact Hne|].
      replace (Z.to_nat m) with (S (Z.to_nat (m - 1))) by lia. cbn [nth]. apply First. lia.
Qed.

Lemma target_missing ids t : forall j, ~ In t ids -> target_index ids t j = 0.
Proof.
  induction ids as [|id ids IH]; intros j H; cbn; [reflexivity|]. destruct (Z.eqb_spec id t) as [E|_]; [exfalso; apply H; left; exact E|].
  apply IH. intros K. apply H. right. exact K.
Qed.

Lemma find_idx_from_ok (xs : list R) x : forall i, exists k, find_idx_from xs x i = i + k /\ 0 <= k <= zlen xs /\
  (forall m, 0 <= m < k -> (x <= zn 0 xs m)%R) /\ (k < zlen xs -> (zn 0 xs k < x)%R).
Proof.
  induction xs as [|a xs IH]; intros i; cbn [find_idx_from].
  - exists 0. cbn. split; [lia|]. split; [lia|]. split; [lia|]. lia.
  - cbn [nltb RNum]. destruct (Rlt_bool_spec a x) as [H|H].
    + exists 0. rewrite zlen_cons. pose proof (zlen_nonneg xs). split; [lia|]. split; [lia|]. split; [lia|]. intros _. exact H.
    + destruct (IH (i + 1)) as (k & E & Hk & A & Bk). exists (k + 1). rewrite zlen_cons. split; [lia|]. split; [lia|]. unfold zn in *. split.
      * intros m Hm. destruct (Z.eq_dec m 0) as [-> |]; [exact H|].
        replace (Z.to_nat m) with (S (Z.to_nat (m - 1))) by lia. cbn [nth]. apply A. lia.
      * intros Hlt. replace (Z.to_nat (k + 1)) with (S (Z.to_nat k)) by lia. cbn [nth]. apply Bk. lia.
Qed.

Lemma particles_ok (fpow : R -> R -> R) (L l : R) (pixels : Z) :
  let v := (1000 * fpow (L / (3 * l)) 3 * fpow (IZR pixels / 500) 3)%R in
  20 <= particles fpow L l pixels /\
  ((v < 20)%R -> particles fpow L l pixels = 20) /\
  ((20 <= v)%R -> (IZR (particles fpow L l pixels) <= v < IZR (particles fpow L l pixels) + 1)%R).
Proof.
  intros v. unfold particles. cbn [nmul ndiv nofZ ntrunc RNum]. fold v.
  destruct (Z.ltb_spec (Ztrunc v) 20) as [H|H].
  - split; [lia|]. split; [reflexivity|]. intros Hv. exfalso.
    assert (Ztrunc 20 <= Ztrunc v) by (apply Ztrunc_le; exact Hv). rewrite Ztrunc_IZR in *. lia.
  - split; [exact H|]. split.
    + intros Hv. destruct (Rlt_le_dec v 0) as [Hn|Hp].
      * assert (Ztrunc v <= Ztrunc 0) by (apply Ztrunc_le; lra). rewrite Ztrunc_IZR in *. lia.
      * rewrite Ztrunc_floor in * by exact Hp. pose proof (Zfloor_lb v). assert (IZR (Zfloor v) < 20)%R by lra. apply lt_IZR in H1. lia.
    + intros Hv. rewrite Ztrunc_floor by lra. split; [apply Zfloor_lb|apply Zfloor_ub].
Qed.

Open Scope R_scope.
Local Notation realK := (CC PI gravity megaparsec solar_mass (177653 / 1000)).

(** The printed radii belong to 200 times the mean density whatever was asked for. *)
Lemma print_radii_200m : forall t (c : cosmo_header R) col, (1 <= t <= 4)%Z -> 0 < ch_omegaM c -> 0 <= ch_omegaL c -> -1 < ch_z c -> ch_h100 c <> 0 ->
  Forall (fun m => 0 < m) col ->
  exists rs, print_radii sqrt Rpower realK t c col = Ok rs /\ Forall (fun r => 0 < r) rs /\
    Forall2 (fun m r => m = sphere_mass 2 (ch_omegaM c) (ch_omegaL c) (ch_z c) r) col rs.
Proof.
  intros t c col Ht A B C E F. unfold print_radii.
  assert (M : rockstar_mass t = Ok true).
  { assert (J : (t = 1 \/ t = 2 \/ t = 3 \/ t = 4)%Z) by lia. destruct J as [-> | [-> | [-> | -> ]]]; reflexivity. }
  rewrite M. cbn [bind].
  assert (L : zlen (repeat (nofZ 0 : R) (length col)) = zlen col) by (unfold zlen; rewrite repeat_length; reflexivity).
  destruct (mass_radius_thm 2 c ltac:(lia) A B C E col _ _ L L F) as [(rs & E1 & E2 & _ & E4 & _) _].
  exists rs. split; [exact E1|]. split; [exact E2|exact E4].
Qed.

Lemma Forall2_nth {A B} (P : A -> B -> Prop) (da : A) (db : B) l l' : Forall2 P l l' -> forall i, (i < length l)%nat -> P (nth i l da) (nth i l' db).
Proof. induction 1; cbn; intros i Hi; [lia|]. destruct i; [assumption|]. apply IHForall2. lia. Qed.

Lemma print_radii_wrong : forall t (c : cosmo_header R) col, t = 1%Z \/ t = 3%Z \/ t = 4%Z -> 0 < ch_omegaM c -> 0 <= ch_omegaL c -> -1 < ch_z c -> ch_h100 c <> 0 ->
  contrast t * reference t (ch_omegaM c) (ch_omegaL c) (ch_z c) <> contrast 2 * reference 2 (ch_omegaM c) (ch_omegaL c) (ch_z c) ->
  Forall (fun m => 0 < m) col ->
  exists rs, print_radii sqrt Rpower realK t c col = Ok rs /\
    Forall2 (fun m r => m <> sphere_mass t (ch_omegaM c) (ch_omegaL c) (ch_z c) r) col rs.
Proof.
  intros t c col Ht A B C E Hd F.
  destruct (print_radii_200m t c col) as (rs & E1 & E2 & E3); try assumption; [destruct Ht as [-> | [-> | -> ]]; lia|].
  exists rs. split; [exact E1|]. clear E1 F. revert E2. induction E3 as [|m r col rs Hm _ IH]; intros E2; constructor.
  - inversion E2; subst. intros K. unfold sphere_mass in K. apply Hd.
    assert (P : 0 < 4 / 3 * PI * (r / (1 + ch_z c)) ^ 3).
    { apply Rmult_lt_0_compat; [pose proof PI_RGT_0; lra|]. apply pow_lt. apply Rdiv_lt_0_compat; lra. }
    apply (Rmult_eq_reg_r (4 / 3 * PI * (r / (1 + ch_z c)) ^ 3)); [symmetry; exact K|lra].
  - apply IH. inversion E2; assumption.
Qed.

Lemma find_idx_ok : forall (xs : list R) x, let k := find_idx xs x in (0 <= k <= zlen xs)%Z /\
  (forall m, (0 <= m < k)%Z -> x <= zn 0 xs m) /\ ((k < zlen xs)%Z -> zn 0 xs k < x).
Proof. intros xs x. cbn zeta. unfold find_idx. destruct (find_idx_from_ok xs x 0) as (k & -> & H). exact H. Qed.
