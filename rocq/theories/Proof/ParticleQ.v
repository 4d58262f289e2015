(** The particle buffer takes only ids of the grid. *)
From Coq Require Import ZArith List Bool Lia ZifyBool ZifyNat.
From Verif Require Import Base.Res Base.ResFacts Model.SheetIO Spec.Files Proof.ReadHaloM Proof.ParticleP.
Import ListNotations.
Open Scope Z_scope.

Lemma for_keep_at {S} (P : Z -> S -> Prop) lo hi (body : Z -> S -> res S) s s' : lo <= hi ->
  (forall i s s', lo <= i < hi -> P i s -> body i s = Ok s' -> P (i + 1) s') -> P lo s -> for_ lo hi body s = Ok s' -> P hi s'.
Proof.
  intros Hle HB HP. remember (Z.to_nat (hi - lo)) as k eqn:Hk. revert lo s Hle HB HP Hk. induction k as [|k IH]; intros lo s Hle HB HP Hk.
  - rewrite for_empty by lia. intros E. injection E as <-. replace hi with lo by lia. exact HP.
  - rewrite for_step by lia. intros H. apply bind_ok in H. destruct H as (s1 & H1 & H2).
    apply (IH (lo + 1) s1); [lia| | |lia|exact H2].
    + intros i t t' Hi. apply HB. lia.
    + apply (HB lo s); auto. lia.
Qed.
Lemma set_range {A} (l l' : list A) i v : set l i v = Ok l' -> 0 <= i < zlen l /\ zlen l' = zlen l /\ l' = upd l (Z.to_nat i) v.
Proof.
  intros H. assert (R : 0 <= i < zlen l).
  { unfold set in H. destruct ((i <? 0) || (zlen l <=? i))%bool eqn:E; [discriminate|lia]. }
  rewrite set_ok in H by exact R. injection H as <-. split; [exact R|]. split; [apply zlen_upd|reflexivity].
Qed.

Section Q.
Context {V : Type} (N : Z).
Implicit Type b : particle_buffer V.
Notation fine := (fun i => 1 <= i <= N).

Lemma flush_range b b' : zlen (pb_xs b) = N -> pb_flush b = Ok b' -> 0 <= pb_idx b <= zlen (pb_id b) ->
  Forall fine (firstn (Z.to_nat (pb_idx b)) (pb_id b)) /\ pb_idx b' = 0 /\ zlen (pb_xs b') = N /\ pb_id b' = pb_id b /\ pb_x b' = pb_x b.
Proof.
  intros HN H HI. unfold pb_flush in H. apply bind_ok in H. destruct H as ((xs, vs) & H & E). injection E as <-. cbn [pb_idx pb_xs pb_id pb_x].
  apply (for_keep_at (fun m (s : list V * list V) => zlen (fst s) = N /\ Forall fine (firstn (Z.to_nat m) (pb_id b)))) in H.
  - destruct H as [H1 H2]. repeat split; auto.
  - lia.
  - intros i [xs1 vs1] [xs2 vs2] Hi (L1 & F1) E. cbn [fst] in *.
    apply bind_ok in E. destruct E as (id & E1 & E). apply bind_ok in E. destruct E as (x & _ & E). apply bind_ok in E. destruct E as (xs3 & E3 & E).
    apply bind_ok in E. destruct E as (v & _ & E). apply bind_ok in E. destruct E as (vs3 & _ & E). injection E as <- <-.
    apply set_range in E3. destruct E3 as (R & L & _). split; [lia|].
    rewrite (get_ok 0) in E1 by lia. injection E1 as E1. unfold zn in E1. replace (Z.to_nat (i + 1)) with (S (Z.to_nat i)) by lia.
    rewrite (firstn_snoc _ _ 0) by (unfold zlen in *; lia). apply Forall_app. split; [exact F1|]. constructor; [lia|constructor].
  - split; [exact HN|constructor].
Qed.

(** [l] are the ids so far. *)
Definition seen b (l : list Z) : Prop := exists old pend, l = old ++ pend /\ Forall fine old /\ pb_idx b = zlen pend /\
  firstn (length pend) (pb_id b) = pend /\ zlen (pb_id b) = zlen (pb_x b) /\ zlen pend < zlen (pb_x b) /\ zlen (pb_xs b) = N.

Lemma append_seen b b' (batch : list (particle V)) l : seen b l ->
  pb_append b (map p_x batch) (map p_v batch) (map p_id batch) = Ok b' -> seen b' (l ++ map p_id batch).
Proof.
  intros HS H. unfold pb_append in H. assert (LB : zlen (map p_x batch) = zlen (map p_id batch)) by (unfold zlen; now rewrite !map_length).
  apply (for_keep_at (fun m b => seen b (l ++ firstn (Z.to_nat m) (map p_id batch)))) in H.
  - rewrite firstn_all2 in H; [exact H|]. rewrite LB. unfold zlen. lia.
  - apply zlen_nonneg.
  - clear H HS b b'. intros i b b' Hi (old & pend & El & HF & HI & HP & HL & HZ & HN) E.
    apply bind_ok in E. destruct E as (x & _ & E). apply bind_ok in E. destruct E as (xs1 & Ex & E).
    apply bind_ok in E. destruct E as (v & _ & E). apply bind_ok in E. destruct E as (vs1 & _ & E).
    apply bind_ok in E. destruct E as (id & Eid & E). apply bind_ok in E. destruct E as (ids1 & Ei & E).
    apply set_range in Ex. destruct Ex as (_ & Lx & _). apply set_range in Ei. destruct Ei as (Ri & Li & Di).
    rewrite (get_ok 0) in Eid by lia. injection Eid as Eid. unfold zn in Eid.
    assert (EL : l ++ firstn (Z.to_nat (i + 1)) (map p_id batch) = old ++ (pend ++ [id])).
    { replace (Z.to_nat (i + 1)) with (S (Z.to_nat i)) by lia. rewrite (firstn_snoc _ _ 0) by (unfold zlen in *; lia). rewrite Eid, !app_assoc, El. reflexivity. }
    assert (EP : firstn (length (pend ++ [id])) ids1 = pend ++ [id]).
    { rewrite app_length. cbn [length]. rewrite Nat.add_1_r, (firstn_snoc _ _ 0) by (unfold zlen in *; lia). f_equal.
      - rewrite Di, HI. unfold zlen. rewrite Nat2Z.id. rewrite <- HP at 3. clear. generalize (pb_id b) (length pend). intros l n. revert n. induction l as [|a l IH]; intros [|n]; cbn; auto. now rewrite IH.
      - rewrite Di, HI, nth_upd by (unfold zlen in *; lia). unfold zlen. rewrite Nat2Z.id, Nat.eqb_refl. reflexivity. }
    cbv zeta in E. cbn [pb_idx pb_x] in E. destruct (Z.eqb_spec (pb_idx b + 1) (zlen xs1)) as [EF|NF].
    + apply flush_range in E; cbn [pb_idx pb_id pb_xs pb_x] in *; [|exact HN|unfold zlen in *; lia]. destruct E as (F2 & I2 & N2 & D2 & X2).
      exists (old ++ (pend ++ [id])), []. split; [now rewrite app_nil_r|]. rewrite I2, D2, X2.
      split; [apply Forall_app; split; [exact HF|]|]. 2:{ split; [reflexivity|]. split; [reflexivity|]. unfold zlen in *. cbn [length]. repeat split; lia. }
      rewrite <- EP. rewrite app_length. cbn [length]. replace (Z.to_nat (pb_idx b + 1)) with (length pend + 1)%nat in F2 by (unfold zlen in HI; lia). exact F2.
    + injection E as <-. exists old, (pend ++ [id]). cbn [pb_idx pb_id pb_xs pb_x]. split; [exact EL|]. split; [exact HF|].
      assert (LP : zlen (pend ++ [id]) = zlen pend + 1) by (unfold zlen; rewrite app_length; cbn; lia).
      split; [lia|]. split; [exact EP|]. split; [lia|]. split; [lia|exact HN].
  - cbn [Z.to_nat firstn]. rewrite app_nil_r. exact HS.
Qed.

Theorem send_range z (xs vs : list V) size batches b : 0 < size -> zlen xs = N -> send z xs vs size batches = Ok b ->
  Forall fine (map p_id (concat batches)).
Proof.
  intros HS HX H. unfold send in H. apply bind_ok in H. destruct H as (b0 & H0 & H). apply bind_ok in H. destruct H as (b1 & H1 & H2).
  unfold new_particle_buffer in H0. replace (size <? 0) with false in H0 by lia. injection H0 as <-.
  assert (S0 : seen (PB (repeat z (Z.to_nat size)) (repeat z (Z.to_nat size)) (repeat 0 (Z.to_nat size)) 0 xs vs) []).
  { exists [], []. cbn [pb_idx pb_id pb_xs pb_x]. repeat split; auto; unfold zlen; rewrite ?repeat_length; cbn; lia. }
  revert S0 H1. generalize (PB (repeat z (Z.to_nat size)) (repeat z (Z.to_nat size)) (repeat 0 (Z.to_nat size)) 0 xs vs) as b0. intros b0 S0 H1.
  assert (S1 : seen b1 ([] ++ map p_id (concat batches))).
  { clear H2. revert b0 S0 H1. generalize (@nil Z). induction batches as [|c batches IH]; intros l b0 S0 H1; cbn [append_all] in H1.
    - injection H1 as <-. cbn. now rewrite app_nil_r.
    - apply bind_ok in H1. destruct H1 as (b2 & E & H1). cbn [concat]. rewrite map_app, app_assoc. eapply IH; [|exact H1]. eapply append_seen; eassumption. }
  cbn [app] in S1. destruct S1 as (old & pend & -> & HF & HI & HP & HL & HZ & HN). apply Forall_app. split; [exact HF|].
  apply flush_range in H2; auto; [|unfold zlen in *; lia]. destruct H2 as (F & _). rewrite HI in F. unfold zlen in F. rewrite Nat2Z.id, HP in F. exact F.
Qed.
End Q.
