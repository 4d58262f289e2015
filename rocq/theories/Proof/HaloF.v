(** The search for one halo and for all halos. *)
From Coq Require Import ZArith List Bool Lia ZifyBool ZifyNat Sorted Permutation.
From Verif Require Import Base.Res Base.ResFacts Base.Num Model.Halo.
From Verif Require Import Spec.Work Proof.WorkP Proof.HaloP Proof.HaloX.
Import ListNotations.
Open Scope Z_scope.

Lemma for_append {B} (body : Z -> list Z * list B -> res (list Z * list B)) (F : Z -> list Z) n b :
  (forall k s buf, 0 <= k < n -> zlen buf = b -> exists buf', body k (s, buf) = Ok (s ++ F k, buf') /\ zlen buf' = b) ->
  forall s buf, zlen buf = b -> exists buf', for_ 0 n body (s, buf) = Ok (s ++ flat_map F (zseq n), buf') /\ zlen buf' = b.
Proof.
  intros HB s buf Hb. destruct (Z_le_gt_dec 0 n) as [Hn|Hn].
  - assert (K : wp (for_ 0 n body (s, buf)) (fun r => fst r = s ++ flat_map F (zseq n) /\ zlen (snd r) = b)).
    { apply (for_inv (fun t r => fst r = s ++ flat_map F (zseq t) /\ zlen (snd r) = b)); auto.
      - cbn. now rewrite app_nil_r.
      - intros t [s' buf'] Ht [E L]. cbn [fst snd] in *. destruct (HB t s' buf' Ht L) as (b2 & -> & L2). cbn [wp fst snd].
        split; auto. rewrite E, zseq_succ, flat_map_app, <- app_assoc by lia. cbn [flat_map]. now rewrite app_nil_r. }
    apply (proj1 (wp_ok _ _)) in K. destruct K as ([s' b'] & E & F1 & F2). cbn in *. subst s'. eauto.
  - rewrite for_empty by lia. unfold zseq. replace (Z.to_nat n) with 0%nat by lia. cbn. rewrite app_nil_r. eauto.
Qed.

Lemma flat_map_map {A B C} (g : A -> B) (F : B -> list C) l : flat_map F (map g l) = flat_map (fun a => F (g a)) l.
Proof. induction l as [|a l IH]; cbn; auto. now rewrite IH. Qed.
Lemma flat_map_flat_map {A B C} (g : A -> list B) (F : B -> list C) l : flat_map F (flat_map g l) = flat_map (fun a => flat_map F (g a)) l.
Proof. induction l as [|a l IH]; cbn; auto. now rewrite flat_map_app, IH. Qed.
Lemma filter_flat_map {A B} (g : A -> list B) (P : B -> bool) l : filter P (flat_map g l) = flat_map (fun a => filter P (g a)) l.
Proof. induction l as [|a l IH]; cbn; auto. now rewrite filter_app, IH. Qed.

(** Cells along one axis, and the cell numbers of a block. *)
Definition axis (c o span : Z) : list Z := map (fun d => let t := o + d in if t >=? c then t - c else t) (zseq span).
Definition block (c : Z) (ax ay az : list Z) : list Z :=
  flat_map (fun z => flat_map (fun y => map (fun x => z * c * c + y * c + x) ax) ay) az.

Lemma in_block c ax ay az k : In k (block c ax ay az) <->
  exists x y z, In x ax /\ In y ay /\ In z az /\ k = z * c * c + y * c + x.
Proof.
  unfold block. rewrite in_flat_map. split.
  - intros (z & Hz & H). apply in_flat_map in H. destruct H as (y & Hy & H). apply in_map_iff in H. destruct H as (x & <- & Hx).
    exists x, y, z. auto.
  - intros (x & y & z & Hx & Hy & Hz & ->). exists z. split; auto. apply in_flat_map. exists y. split; auto. apply in_map_iff. eauto.
Qed.

Lemma digits c x y z : 0 <= x < c -> 0 <= y < c -> 0 <= z < c ->
  (z * c * c + y * c + x) mod c = x /\ (z * c * c + y * c + x) / c mod c = y /\ (z * c * c + y * c + x) / (c * c) = z.
Proof.
  intros Hx Hy Hz. split; [|split].
  - replace (z * c * c + y * c + x) with (x + (z * c + y) * c) by ring. rewrite Z.mod_add by lia. now apply Z.mod_small.
  - replace (z * c * c + y * c + x) with (x + (z * c + y) * c) by ring. rewrite Z.div_add by lia. rewrite (Z.div_small x) by auto.
    replace (0 + (z * c + y)) with (y + z * c) by ring. rewrite Z.mod_add by lia. now apply Z.mod_small.
  - symmetry. apply Z.div_unique with (r := y * c + x); [left; nia|ring].
Qed.

Lemma NoDup_block c ax ay az : NoDup ax -> NoDup ay -> NoDup az ->
  (forall k, In k ax -> 0 <= k < c) -> (forall k, In k ay -> 0 <= k < c) -> (forall k, In k az -> 0 <= k < c) ->
  NoDup (block c ax ay az).
Proof.
  intros Nx Ny Nz Rx Ry Rz. unfold block. apply NoDup_flat_map with (key := fun k => k / (c * c)); auto.
  - intros z Hz. apply NoDup_flat_map with (key := fun k => k / c mod c); auto.
    + intros y Hy. apply NoDup_map_key with (key := fun k => k mod c); auto. intros x Hx. apply digits; auto.
    + intros y k Hy Hk. apply in_map_iff in Hk. destruct Hk as (x & <- & Hx). apply digits; auto.
  - intros z k Hz Hk. apply in_flat_map in Hk. destruct Hk as (y & Hy & Hk). apply in_map_iff in Hk. destruct Hk as (x & <- & Hx).
    apply digits; auto.
Qed.

Section Gen.
Context {D : Type} {ND : Num D}.
Variable d0 : D.
Variables (g : hgrid D) (f : Z -> Z) (n : Z) (xs ys zs rs : list D).
Hypothesis Hn : 1 <= n <= zlen (gr_next g).
Hypothesis Hg : holds g f n.
Hypothesis Hx : zlen xs = n.
Hypothesis Hy : zlen ys = n.
Hypothesis Hz : zlen zs = n.
Hypothesis Hr : zlen rs = n.

(** The overlap test of markSubhalos. *)
Definition meets (ih j : Z) : bool :=
  (let dx := zn d0 xs ih - zn d0 xs j in let dy := zn d0 ys ih - zn d0 ys j in let dz := zn d0 zs ih - zn d0 zs j in
   let dr := zn d0 rs ih + zn d0 rs j in dr * dr >=? dx * dx + dy * dy + dz * dz)%num.
Definition found (ih j : Z) : bool := (ih <? j) && meets ih j.

Lemma mark_ok ih buf l subs : 0 <= ih < n -> zlen l <= zlen buf -> firstn (Z.to_nat (zlen l)) buf = l -> (forall j, In j l -> 0 <= j < n) ->
  mark_subhalos ih buf (zlen l) xs ys zs rs subs = Ok (subs ++ filter (found ih) l).
Proof.
  intros Hi Hl HF HI. unfold mark_subhalos. rewrite !(get_ok d0) by lia. cbn [bind].
  pose proof (for_slice (S := list Z) buf (fun j subs => if j <=? ih then Ok subs else
    (sx <- get xs j ;; sy <- get ys j ;; sz <- get zs j ;; sr <- get rs j ;;
    let dx := (zn d0 xs ih - sx)%num in let dy := (zn d0 ys ih - sy)%num in let dz := (zn d0 zs ih - sz)%num in let dr := (zn d0 rs ih + sr)%num in
    Ok (if (dr * dr >=? dx * dx + dy * dy + dz * dz)%num then subs ++ [j] else subs)))%res l 0 subs) as K.
  rewrite Z.add_0_l in K. etransitivity; [apply K; try lia|].
  { intros j Hj. rewrite Z.add_0_l. rewrite <- HF at 1. now rewrite zn_firstn. }
  clear K HF Hl buf. revert subs. induction l as [|j l IH]; intros subs; cbn [each filter].
  - now rewrite app_nil_r.
  - specialize (HI j (or_introl eq_refl)) as Hj. assert (HI' : forall j, In j l -> 0 <= j < n) by (intros; apply HI; now right).
    unfold found at 1. destruct (Z.leb_spec j ih).
    + cbn [bind]. replace (ih <? j) with false by lia. cbn [andb]. auto.
    + rewrite !(get_ok d0) by lia. cbn [bind]. replace (ih <? j) with true by lia. cbn [andb]. fold (meets ih j).
      rewrite IH by auto. destruct (meets ih j); auto. now rewrite <- app_assoc.
Qed.

(** Cells searched for halo [ih] with total radius [r]. *)
Definition cells_of (r : D) (p : D) : list Z :=
  let b := sphere_bounds1 p r (gr_cw g) (gr_width g) in axis (gr_cells g) (fst b) (snd b).
Definition searched (cMax : list D) (ih : Z) : list Z :=
  let r := (zn d0 rs ih + zn d0 cMax ih)%num in
  block (gr_cells g) (cells_of r (zn d0 xs ih)) (cells_of r (zn d0 ys ih)) (cells_of r (zn d0 zs ih)).
Definition hits (cMax : list D) (ih : Z) : list Z :=
  filter (found ih) (flat_map (fun k => members (fun i => f i =? k) n) (searched cMax ih)).

Lemma search_ok cMax ih subs buf : zlen cMax = n -> 0 <= ih < n ->
  (forall k, In k (searched cMax ih) -> 0 <= k < zlen (gr_heads g)) ->
  (forall k, 0 <= k < zlen (gr_heads g) -> zlen (members (fun i => f i =? k) n) <= zlen buf) ->
  exists buf', search g xs ys zs rs cMax ih (subs, buf) = Ok (subs ++ hits cMax ih, buf') /\ zlen buf' = zlen buf.
Proof.
  intros Hc Hi HS HB. unfold search. rewrite !(get_ok d0) by lia. cbn [bind].
  unfold hits, searched, block in *. rewrite flat_map_flat_map. unfold cells_of at 3. unfold axis. rewrite flat_map_map, filter_flat_map.
  set (r := (zn d0 rs ih + zn d0 cMax ih)%num) in *.
  set (bx := sphere_bounds1 (zn d0 xs ih) r (gr_cw g) (gr_width g)) in *.
  set (by_ := sphere_bounds1 (zn d0 ys ih) r (gr_cw g) (gr_width g)) in *.
  set (bz := sphere_bounds1 (zn d0 zs ih) r (gr_cw g) (gr_width g)) in *.
  set (c := gr_cells g) in *.
  apply for_append; auto. intros dz s1 b1 Hdz L1.
  rewrite flat_map_flat_map. unfold cells_of at 2. fold by_. fold c. unfold axis. rewrite flat_map_map, filter_flat_map.
  apply for_append; auto. intros dy s2 b2 Hdy L2.
  rewrite flat_map_map. unfold cells_of. fold bx. fold c. unfold axis. rewrite flat_map_map, filter_flat_map.
  apply for_append; auto. intros dx s3 b3 Hdx L3.
  match goal with |- context [read_indexes g ?k _] => set (idx := k) end.
  assert (HK : 0 <= idx < zlen (gr_heads g)).
  { apply HS. apply in_flat_map. exists (let t := fst bz + dz in if t >=? c then t - c else t). split.
    - unfold cells_of. fold bz c. unfold axis. apply in_map_iff. exists dz. split; auto. now apply in_zseq.
    - apply in_flat_map. exists (let t := fst by_ + dy in if t >=? c then t - c else t). split.
      + unfold cells_of. fold by_ c. unfold axis. apply in_map_iff. exists dy. split; auto. now apply in_zseq.
      + apply in_map_iff. exists (let t := fst bx + dx in if t >=? c then t - c else t). split; [reflexivity|].
        unfold cells_of. fold bx c. unfold axis. apply in_map_iff. exists dx. split; auto. now apply in_zseq. }
  destruct (holds_read g f n idx b3) as (b4 & -> & L4 & F4); [lia|auto|auto|rewrite L3; now apply HB|].
  cbn [bind]. rewrite mark_ok; auto.
  - cbn [bind]. exists b4. split; [reflexivity|lia].
  - rewrite L4, L3. now apply HB.
  - intros j Hj. apply in_members in Hj. lia.
Qed.

Lemma hits_in cMax ih j : In j (hits cMax ih) <-> 0 <= j < n /\ ih < j /\ meets ih j = true /\ In (f j) (searched cMax ih).
Proof.
  unfold hits. rewrite filter_In, in_flat_map. unfold found. rewrite andb_true_iff, Z.ltb_lt. split.
  - intros ((k & A & B) & C & E). apply in_members in B. destruct B as [B1 B2]. apply Z.eqb_eq in B2. subst k. auto.
  - intros (A & B & C & E). split; auto. exists (f j). split; auto. apply in_members. split; auto. apply Z.eqb_refl.
Qed.
Lemma hits_NoDup cMax ih : NoDup (searched cMax ih) -> NoDup (hits cMax ih).
Proof.
  intros N. unfold hits. apply NoDup_filter. apply NoDup_flat_map with (key := f); auto.
  - intros k _. apply NoDup_members.
  - intros k j _ Hj. apply in_members in Hj. destruct Hj as [_ E]. now apply Z.eqb_eq in E.
Qed.

Lemma all_ok cMax buf starts : zlen cMax = n -> zlen starts = n ->
  (forall ih k, 0 <= ih < n -> In k (searched cMax ih) -> 0 <= k < zlen (gr_heads g)) ->
  (forall k, 0 <= k < zlen (gr_heads g) -> zlen (members (fun i => f i =? k) n) <= zlen buf) ->
  exists starts' buf', for_ 0 (zlen rs) (fun ih s =>
    let '(starts, subs, buf) := s in
    starts <- set starts ih (zlen subs) ;;
    '(subs, buf) <- search g xs ys zs rs cMax ih (subs, buf) ;;
    Ok (starts, subs, buf))%res (starts, [], buf) = Ok (starts', flat_map (hits cMax) (zseq n), buf') /\ starts_ok starts' (hits cMax) n.
Proof.
  intros Hc Hs HS HB. rewrite Hr.
  match goal with |- context [for_ 0 n ?b ?s] => assert (K : wp (for_ 0 n b s) (fun r => let '(st, subs, bf) := r in
    zlen st = n /\ zlen bf = zlen buf /\ subs = flat_map (hits cMax) (zseq n) /\ forall i, 0 <= i < n -> zn 0 st i = off (hits cMax) i)) end.
  { apply (for_inv (fun t r => let '(st, subs, bf) := r in
    zlen st = n /\ zlen bf = zlen buf /\ subs = flat_map (hits cMax) (zseq t) /\ forall i, 0 <= i < t -> zn 0 st i = off (hits cMax) i)); [lia| |].
    - repeat split; auto. intros; lia.
    - intros t [[st subs] bf] Ht (A & B & C & E). rewrite set_ok by lia. cbn [bind].
      destruct (search_ok cMax t subs bf) as (bf' & -> & L); auto.
      { intros k Hk. now apply (HS t). } { intros k Hk. rewrite B. now apply HB. }
      cbn [bind wp]. rewrite zlen_upd. split; auto. split; [lia|]. split.
      + rewrite C, zseq_succ, flat_map_app by lia. cbn [flat_map]. now rewrite app_nil_r.
      + intros i Hi. rewrite zn_upd by lia. destruct (Z.eqb_spec i t) as [->|]; [now rewrite C|]. apply E. lia. }
  apply (proj1 (wp_ok _ _)) in K. destruct K as ([[st subs] bf] & K & A & B & -> & E). exists st, bf. split; [exact K|]. split; auto.
Qed.
End Gen.
