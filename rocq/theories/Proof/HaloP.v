(** Grid lists and the cross matching of lists, for any number type. *)
From Coq Require Import ZArith List Bool Lia ZifyBool ZifyNat Sorted Permutation.
From Verif Require Import Base.Res Base.ResFacts Base.Num Model.Halo.
From Verif Require Import Spec.Work Proof.WorkP.
Import ListNotations.
Open Scope Z_scope.

Lemma zseq_0 : zseq 0 = [].
Proof. reflexivity. Qed.
Lemma zseq_succ n : 0 <= n -> zseq (n + 1) = zseq n ++ [n].
Proof.
  intros H. unfold zseq. replace (Z.to_nat (n + 1)) with (S (Z.to_nat n)) by lia.
  rewrite seq_S, map_app. cbn [map]. now rewrite Nat.add_0_l, Z2Nat.id by lia.
Qed.
Lemma zlen_zseq n : 0 <= n -> zlen (zseq n) = n.
Proof. intros H. unfold zlen, zseq. rewrite map_length, seq_length. lia. Qed.

(** ** Chains of links *)
Inductive chain (next : list Z) : Z -> list Z -> Prop :=
| chain_nil : chain next (-1) []
| chain_cons i l : 0 <= i < zlen next -> chain next (zn 0 next i) l -> chain next i (i :: l).

Lemma chain_upd next i v h l : 0 <= i < zlen next -> ~ In i l -> chain next h l -> chain (upd next (Z.to_nat i) v) h l.
Proof.
  intros Hi HI H. induction H as [|j l Hj H IH]; [constructor|].
  constructor; [now rewrite zlen_upd|]. assert (i <> j) by (intros ->; apply HI; now left).
  rewrite zn_upd_neq by lia. apply IH. intros K; apply HI; now right.
Qed.

Lemma chain_length next h l : chain next h l -> forall fuel n, (List.length l < fuel)%nat ->
  length_loop fuel next h n = Ok (n + zlen l).
Proof.
  induction 1 as [|i l Hi H IH]; intros [|f] n Hf; cbn [List.length] in Hf; try lia; cbn [length_loop]; unfold tail.
  - change (-1 =? -1) with true. cbv iota. f_equal. change (zlen []) with 0. lia.
  - replace (i =? -1) with false by lia. rewrite (get_ok 0) by auto. cbn [bind]. rewrite IH by lia.
    f_equal. rewrite zlen_cons. lia.
Qed.

Lemma firstn_upd_le {A} (l : list A) k i v : (k <= i)%nat -> firstn k (upd l i v) = firstn k l.
Proof.
  revert k i. induction l as [|a l IH]; intros [|k] [|i] H; cbn [upd firstn]; auto; try lia. f_equal. apply IH. lia.
Qed.
Lemma firstn_upd_S {A} (l : list A) i v : (i < List.length l)%nat -> firstn (S i) (upd l i v) = firstn i l ++ [v].
Proof.
  revert i. induction l as [|a l IH]; intros [|i] H; cbn [upd firstn List.length app] in *; auto; try lia. f_equal. apply IH. lia.
Qed.

Lemma chain_read next h l : chain next h l -> forall fuel n buf, (List.length l < fuel)%nat -> 0 <= n -> n + zlen l <= zlen buf ->
  exists buf', read_loop fuel next h n buf = Ok (buf', n + zlen l) /\ zlen buf' = zlen buf /\
    firstn (Z.to_nat (n + zlen l)) buf' = firstn (Z.to_nat n) buf ++ l.
Proof.
  induction 1 as [|i l Hi H IH]; intros [|f] n buf Hf Hn Hb; cbn [List.length] in Hf; try lia; cbn [read_loop]; unfold tail.
  - change (-1 =? -1) with true. cbv iota. exists buf. change (zlen []) with 0. rewrite Z.add_0_r, app_nil_r. auto.
  - rewrite zlen_cons in *. pose proof (zlen_nonneg l).
    replace (i =? -1) with false by lia. rewrite set_ok by lia. cbn [bind]. rewrite (get_ok 0) by auto. cbn [bind].
    destruct (IH f (n + 1) (upd buf (Z.to_nat n) i)) as (buf' & -> & L & E); try lia; [rewrite zlen_upd; lia|].
    exists buf'. replace (n + (1 + zlen l)) with (n + 1 + zlen l) by lia. split; [auto|]. split; [now rewrite L, zlen_upd|].
    rewrite E. replace (Z.to_nat (n + 1)) with (S (Z.to_nat n)) by lia.
    rewrite firstn_upd_S by (unfold zlen in *; lia). now rewrite <- app_assoc.
Qed.

(** Indices below [n] with a property, largest first. *)
Definition members (P : Z -> bool) (n : Z) : list Z := rev (filter P (zseq n)).

Lemma members_succ P n : 0 <= n -> members P (n + 1) = if P n then n :: members P n else members P n.
Proof.
  intros H. unfold members. rewrite zseq_succ by auto. rewrite filter_app, rev_app_distr. cbn [filter].
  now destruct (P n).
Qed.
Lemma in_members P n i : In i (members P n) <-> 0 <= i < n /\ P i = true.
Proof. unfold members. now rewrite <- in_rev, filter_In, in_zseq. Qed.
Lemma members_length P n : 0 <= n -> zlen (members P n) <= n.
Proof.
  intros H. unfold members, zlen. rewrite rev_length.
  assert (K : forall l, (List.length (filter P l) <= List.length l)%nat).
  { induction l as [|a l IH]; cbn; auto. destruct (P a); cbn; lia. }
  specialize (K (zseq n)). pose proof (zlen_zseq n H). unfold zlen in *. lia.
Qed.
Lemma NoDup_members P n : NoDup (members P n).
Proof. unfold members. apply NoDup_rev, NoDup_filter, NoDup_zseq. Qed.
Lemma members_desc P n : StronglySorted (fun a b => b < a) (members P n).
Proof.
  destruct (Z_le_gt_dec 0 n) as [H|H].
  2:{ unfold members, zseq. replace (Z.to_nat n) with 0%nat by lia. constructor. }
  revert n H. apply natlike_ind; [constructor|]. intros n H IH. unfold Z.succ. rewrite members_succ by auto.
  destruct (P n); auto. constructor; auto. apply Forall_forall. intros i Hi. apply in_members in Hi. lia.
Qed.

Section Gen.
Context {D : Type} {ND : Num D}.
Variable d0 : D.

(** The cell number that Insert computes for entry [i]. *)
Definition icell (g : hgrid D) (xs ys zs : list D) (i : Z) : Z :=
  let c t := ntrunc (insert_wrap (gr_width g) t / gr_cw g)%num in
  c (zn d0 xs i) + c (zn d0 ys i) * gr_cells g + c (zn d0 zs i) * gr_cells g * gr_cells g.

(** The grid holds the lists of the first [n] entries. *)
Definition holds (g : hgrid D) (f : Z -> Z) (n : Z) : Prop :=
  forall k, 0 <= k < zlen (gr_heads g) -> chain (gr_next g) (zn 0 (gr_heads g) k) (members (fun i => f i =? k) n).

Definition same_shape (g g' : hgrid D) : Prop :=
  gr_cells g' = gr_cells g /\ gr_cw g' = gr_cw g /\ gr_width g' = gr_width g /\
  zlen (gr_heads g') = zlen (gr_heads g) /\ zlen (gr_next g') = zlen (gr_next g).

Lemma icell_shape g g' xs ys zs i : same_shape g g' -> icell g' xs ys zs i = icell g xs ys zs i.
Proof. intros (A & B & C & _). unfold icell. now rewrite A, B, C. Qed.

Lemma insert_holds g xs ys zs : zlen ys = zlen xs -> zlen zs = zlen xs -> zlen xs <= zlen (gr_next g) ->
  (forall k, 0 <= k < zlen (gr_heads g) -> zn 0 (gr_heads g) k = -1) ->
  (forall i, 0 <= i < zlen xs -> 0 <= icell g xs ys zs i < zlen (gr_heads g)) ->
  exists g', insert g xs ys zs = Ok g' /\ same_shape g g' /\ holds g' (icell g xs ys zs) (zlen xs).
Proof.
  intros Hy Hz Hn He Hc. pose proof (zlen_nonneg xs).
  apply (proj1 (wp_ok _ _)). unfold insert.
  apply (for_inv (fun i g' => same_shape g g' /\ holds g' (icell g xs ys zs) i)); auto.
  - split; [unfold same_shape; tauto|]. intros k Hk. rewrite He by auto. constructor.
  - intros i g' Hi (S1 & Hh). pose proof (icell_shape g g' xs ys zs i S1) as IC. specialize (Hc i Hi).
    pose proof S1 as S2. destruct S2 as (_ & _ & _ & L1 & L2).
    unfold insert1. rewrite !(get_ok d0) by lia. cbn [bind]. fold (icell g' xs ys zs i). rewrite IC.
    rewrite (get_ok 0) by lia. cbn [bind]. rewrite !set_ok by lia. cbn [bind wp].
    split.
    + unfold same_shape in *. cbn [gr_cells gr_cw gr_width gr_heads gr_next]. rewrite !zlen_upd. tauto.
    + intros k Hk. cbn [gr_heads gr_next] in *. rewrite zlen_upd in Hk. rewrite members_succ by lia.
      destruct (Z.eqb_spec (icell g xs ys zs i) k) as [<-|Nk].
      * rewrite zn_upd_eq by lia. constructor; [rewrite zlen_upd; lia|]. rewrite zn_upd_eq by lia.
        apply chain_upd; [lia| |apply Hh; lia]. rewrite in_members. lia.
      * rewrite zn_upd_neq by lia. apply chain_upd; [lia| |apply Hh; lia]. rewrite in_members. lia.
Qed.

Lemma holds_fuel (g : hgrid D) (f : Z -> Z) n k : 0 <= n <= zlen (gr_next g) ->
  (List.length (members (fun i => (f i =? k)%Z) n) < grid_fuel g)%nat.
Proof. intros H. pose proof (members_length (fun i => f i =? k) n). unfold grid_fuel, zlen in *. lia. Qed.

Lemma holds_length g f n k : 0 <= n <= zlen (gr_next g) -> holds g f n -> 0 <= k < zlen (gr_heads g) ->
  grid_length g k = Ok (zlen (members (fun i => f i =? k) n)).
Proof.
  intros Hn Hh Hk. unfold grid_length. rewrite (get_ok 0) by auto. cbn [bind].
  rewrite (chain_length _ _ _ (Hh k Hk)) by (apply holds_fuel; auto). reflexivity.
Qed.

Lemma holds_read g f n k buf : 0 <= n <= zlen (gr_next g) -> holds g f n -> 0 <= k < zlen (gr_heads g) ->
  zlen (members (fun i => f i =? k) n) <= zlen buf ->
  exists buf', read_indexes g k buf = Ok (buf', zlen (members (fun i => f i =? k) n)) /\ zlen buf' = zlen buf /\
    firstn (Z.to_nat (zlen (members (fun i => f i =? k) n))) buf' = members (fun i => f i =? k) n.
Proof.
  intros Hn Hh Hk Hb. unfold read_indexes. rewrite (get_ok 0) by auto. cbn [bind].
  destruct (chain_read _ _ _ (Hh k Hk) (grid_fuel g) 0 buf) as (buf' & E & L & F); try lia; [apply holds_fuel; auto|].
  exists buf'. auto.
Qed.

Lemma holds_max g f n : 0 <= n <= zlen (gr_next g) -> holds g f n ->
  exists m, max_length g = Ok m /\ 0 <= m /\
    (forall k, 0 <= k < zlen (gr_heads g) -> zlen (members (fun i => f i =? k) n) <= m) /\
    (m = 0 \/ exists k, 0 <= k < zlen (gr_heads g) /\ m = zlen (members (fun i => f i =? k) n)).
Proof.
  intros Hn Hh. apply (proj1 (wp_ok _ _)). unfold max_length, total_cells. pose proof (zlen_nonneg (gr_heads g)).
  apply (for_inv (fun t m => 0 <= m /\ (forall k, 0 <= k < t -> zlen (members (fun i => f i =? k) n) <= m) /\
    (m = 0 \/ exists k, 0 <= k < t /\ m = zlen (members (fun i => f i =? k) n)))); auto.
  - repeat split; [lia|intros; lia|now left].
  - intros t m Ht (A & B & C). rewrite (holds_length g f n t) by auto. cbn [bind wp].
    set (l := zlen (members (fun i => f i =? t) n)) in *.
    destruct (Z.gtb_spec l m) as [G|G].
    + split; [lia|]. split; [|right; exists t; split; [lia|reflexivity]].
      intros k Hk. destruct (Z.eq_dec k t) as [->|]; [fold l; lia|]. specialize (B k ltac:(lia)). lia.
    + split; [lia|]. split.
      * intros k Hk. destruct (Z.eq_dec k t) as [->|]; [fold l; lia|]. apply B. lia.
      * destruct C as [C|(k & K & E)]; [now left|right; exists k; split; [lia|auto]].
Qed.
End Gen.
