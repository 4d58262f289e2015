(** The goroutines of RenderDensityFromFile under every schedule. *)
From Coq Require Import ZArith List Bool Lia Permutation Arith.
From Verif Require Import Base.Res Base.ResFacts Model.Render Spec.Work.
Import ListNotations.

Section W.
Variables B G : Type.
Variable add : B -> G -> res G.
Variable n : nat.
Variable prog : nat -> list (B -> B).
Variable b0 : nat -> B.
Variable g0 : G.
Hypothesis Hn : (1 <= n)%nat.

Let apply_all (l : list (B -> B)) (b : B) : B := fold_left (fun b u => u b) l b.
Let run (i : nat) : B := apply_all (prog i) (b0 i).

Definition pinv (s : pstate B G) : Prop := exists rec,
  (forall i, match ph s i with
    | NotStarted => bufs s i = b0 i
    | Running rest => exists d, prog i = d ++ rest /\ bufs s i = apply_all d (b0 i)
    | Finished => bufs s i = run i end) /\
  NoDup (rec ++ chan s) /\ (forall i, In i (rec ++ chan s) <-> ph s i = Finished) /\
  each (map run rec) add g0 = Ok (grd s) /\
  match mainp s with
  | Spawning k => (k + 1 <= n)%nat /\ (forall i, (i < k)%nat <-> ph s i <> NotStarted) /\ rec = []
  | Self => (forall i, (i < n)%nat <-> ph s i <> NotStarted) /\ (exists r, ph s (n - 1) = Running r) /\ rec = []
  | Receiving k => (forall i, (i < n)%nat <-> ph s i <> NotStarted) /\ ph s (n - 1) = Finished /\ length rec = k
  end.

Lemma at_eq {A} (f : nat -> A) i a : at_ f i a i = a.
Proof. unfold at_. now rewrite Nat.eqb_refl. Qed.
Lemma at_neq {A} (f : nat -> A) i a j : j <> i -> at_ f i a j = f j.
Proof. unfold at_. intros H. apply Nat.eqb_neq in H. now rewrite H. Qed.

Lemma each_app {A S} (l1 l2 : list A) (body : A -> S -> res S) s :
  each (l1 ++ l2) body s = bind (each l1 body s) (each l2 body).
Proof. revert s; induction l1 as [|a l IH]; intros s; cbn [each app bind]; auto. destruct (body a s); cbn [bind]; auto. Qed.

Lemma pinv_init : pinv (pinit B G b0 g0).
Proof.
  exists []. cbn. repeat split; auto; try constructor; try contradiction; try discriminate; try lia.
Qed.

Lemma NoDup_snoc {A} (l : list A) a : NoDup l -> ~ In a l -> NoDup (l ++ [a]).
Proof.
  intros H Ha. apply (Permutation_NoDup (l := a :: l)); [apply Permutation_cons_append|]. now constructor.
Qed.

Ltac at_case j i := destruct (Nat.eq_dec j i) as [->|?]; [rewrite ?at_eq in *|rewrite ?(at_neq _ i _ j) in * by auto].

Lemma pinv_step s s' : pinv s -> pstep B G add n prog s s' -> pinv s'.
Proof.
  intros (rec & H1 & H2 & H3 & H4 & H5) HS. destruct HS as [f b c g k H|f b c g k H|f b c m g i u rest H|f b c m g i H HI HC|f b c g i H HI HC|f b c k g g' i H H0]; cbn [ph bufs chan mainp grd] in *.
  - (* spawn *) exists rec. cbn [ph bufs chan mainp grd]. destruct H5 as (H5 & H6 & ->).
    assert (HNS : f k = NotStarted). { specialize (H6 k). destruct (f k); auto; exfalso; assert (k < k)%nat by (apply H6; discriminate); lia. }
    repeat split; auto; try lia.
    + intros i. at_case i k; [|apply H1]. exists []. split; auto. specialize (H1 k). now rewrite HNS in H1.
    + intros Hi. apply H3 in Hi. at_case i k; auto. congruence.
    + intros Hi. apply H3. at_case i k; auto. discriminate.
    + intros Hi. at_case i k; [discriminate|]. apply H6. lia.
    + intros Hi. at_case i k; [lia|]. apply H6 in Hi. lia.
  - (* self *) exists rec. cbn [ph bufs chan mainp grd]. destruct H5 as (H5 & H6 & ->).
    assert (HNS : f k = NotStarted). { specialize (H6 k). destruct (f k); auto; exfalso; assert (k < k)%nat by (apply H6; discriminate); lia. }
    repeat split; auto; try lia.
    + intros i. at_case i k; [|apply H1]. exists []. split; auto. specialize (H1 k). now rewrite HNS in H1.
    + intros Hi. apply H3 in Hi. at_case i k; auto. congruence.
    + intros Hi. apply H3. at_case i k; auto. discriminate.
    + intros Hi. at_case i k; [discriminate|]. apply H6. lia.
    + intros Hi. at_case i k; [lia|]. apply H6 in Hi. lia.
    + exists (prog k). replace (n - 1)%nat with k by lia. apply at_eq.
  - (* work *) exists rec. cbn [ph bufs chan mainp grd]. split; [|split; [auto|split; [|split; [auto|]]]].
    + intros j. at_case j i; [|apply H1]. specialize (H1 i). rewrite H in H1. destruct H1 as (d & E1 & E2).
      exists (d ++ [u]). split; [rewrite <- app_assoc; exact E1|].
      unfold apply_all. rewrite fold_left_app. cbn [fold_left]. unfold apply_all in E2. now rewrite <- E2.
    + intros j. rewrite H3. at_case j i; [|tauto]. rewrite H. split; discriminate.
    + assert (HP : forall j, at_ f i (Running rest) j <> NotStarted <-> f j <> NotStarted).
      { intros j. at_case j i; [|tauto]. rewrite H. split; discriminate. }
      destruct m as [k| |k].
      * destruct H5 as (H5 & H6 & H7). split; [auto|split; [|auto]]. intros j. now rewrite HP.
      * destruct H5 as (H5 & (r & H6) & H7). split; [intros j; now rewrite HP|split; [|auto]].
        at_case (n - 1)%nat i; eauto.
      * destruct H5 as (H5 & H6 & H7). split; [intros j; now rewrite HP|split; [|auto]].
        destruct (Nat.eq_dec (n - 1) i) as [E|E]; [rewrite E in H6; congruence|rewrite at_neq; auto].
  - (* send *) exists rec. cbn [ph bufs chan mainp grd].
    assert (HNI : ~ In i (rec ++ c)) by (rewrite H3; rewrite H; discriminate).
    split; [|split; [|split; [|split; [auto|]]]].
    + intros j. at_case j i; [|apply H1]. specialize (H1 i). rewrite H in H1. destruct H1 as (d & E1 & E2).
      rewrite app_nil_r in E1. unfold run. now rewrite E1.
    + rewrite app_assoc. now apply NoDup_snoc.
    + intros j. rewrite app_assoc, in_app_iff. cbn [In]. at_case j i; [tauto|]. rewrite H3. split; [intros [K|[K|K]]; auto; [congruence|contradiction]|tauto].
    + assert (HP : forall j, at_ f i Finished j <> NotStarted <-> f j <> NotStarted).
      { intros j. at_case j i; [|tauto]. rewrite H. split; discriminate. }
      destruct m as [k| |k].
      * destruct H5 as (H5 & H6 & H7). split; [auto|split; [|auto]]. intros j. now rewrite HP.
      * destruct H5 as (H5 & (r & H6) & H7). split; [intros j; now rewrite HP|split; [|auto]].
        rewrite at_neq by lia. eauto.
      * destruct H5 as (H5 & H6 & H7). split; [intros j; now rewrite HP|split; [|auto]].
        rewrite at_neq by lia. auto.
  - (* send_self *) exists rec. cbn [ph bufs chan mainp grd].
    assert (HNI : ~ In i (rec ++ c)) by (rewrite H3; rewrite H; discriminate).
    split; [|split; [|split; [|split; [auto|]]]].
    + intros j. at_case j i; [|apply H1]. specialize (H1 i). rewrite H in H1. destruct H1 as (d & E1 & E2).
      rewrite app_nil_r in E1. unfold run. now rewrite E1.
    + rewrite app_assoc. now apply NoDup_snoc.
    + intros j. rewrite app_assoc, in_app_iff. cbn [In]. at_case j i; [tauto|]. rewrite H3. split; [intros [K|[K|K]]; auto; [congruence|contradiction]|tauto].
    + assert (HP : forall j, at_ f i Finished j <> NotStarted <-> f j <> NotStarted).
      { intros j. at_case j i; [|tauto]. rewrite H. split; discriminate. }
      destruct H5 as (H5 & (r & H6) & ->). split; [intros j; now rewrite HP|split; [|auto]].
      replace (n - 1)%nat with i by lia. apply at_eq.
  - (* recv *) exists (rec ++ [i]). cbn [ph bufs chan mainp grd].
    assert (EA : (rec ++ [i]) ++ c = rec ++ i :: c) by (rewrite <- app_assoc; reflexivity).
    split; [|split; [|split; [|split]]]; auto.
    + now rewrite EA.
    + intros j. rewrite EA. apply H3.
    + rewrite map_app, each_app, H4. cbn [bind map each].
      assert (ph_i : f i = Finished) by (apply H3; rewrite in_app_iff; right; now left).
      specialize (H1 i). rewrite ph_i in H1. rewrite <- H1, H0. reflexivity.
    + destruct H5 as (H5 & H6 & H7). repeat split; auto; try apply H5. rewrite app_length. cbn. lia.
Qed.

Lemma pinv_reach s : preach B G add n prog b0 g0 s -> pinv s.
Proof. induction 1; [apply pinv_init|eapply pinv_step; eauto]. Qed.

Lemma NoDup_below l : NoDup l -> (forall i, In i l -> (i < n)%nat) -> (length l <= n)%nat.
Proof.
  intros H1 H2. rewrite <- (seq_length n 0). apply NoDup_incl_length; auto.
  intros i Hi. apply in_seq. specialize (H2 i Hi). lia.
Qed.

Lemma NoDup_app_l {A} (l1 l2 : list A) : NoDup (l1 ++ l2) -> NoDup l1.
Proof.
  induction l1 as [|a l IH]; cbn; intros H; constructor; inversion_clear H; auto.
  intros K. apply H0. rewrite in_app_iff. auto.
Qed.

Lemma reach_final s : preach B G add n prog b0 g0 s -> pfinal B G n s ->
  exists order, Permutation order (seq 0 n) /\ each (map run order) add g0 = Ok (grd s).
Proof.
  intros HR HF. destruct (pinv_reach s HR) as (rec & H1 & H2 & H3 & H4 & H5).
  unfold pfinal in HF. rewrite HF in H5. destruct H5 as (H5 & H6 & H7).
  exists rec. split; auto.
  assert (HB : forall i, In i (rec ++ chan s) -> (i < n)%nat).
  { intros i Hi. apply H5. apply H3 in Hi. rewrite Hi. discriminate. }
  assert (HN : NoDup rec) by (eapply NoDup_app_l; eauto).
  apply NoDup_Permutation_bis; auto.
  - rewrite seq_length. lia.
  - intros i Hi. apply in_seq. specialize (HB i). rewrite in_app_iff in HB. specialize (HB (or_introl Hi)). lia.
Qed.

(** Progress. *)
Variables (okB : B -> Prop) (okG : G -> Prop).
Hypothesis HB0 : forall i, okB (b0 i).
Hypothesis HG0 : okG g0.
Hypothesis Hprog : forall i u b, In u (prog i) -> okB b -> okB (u b).
Hypothesis Hadd : forall b g, okB b -> okG g -> exists g', add b g = Ok g' /\ okG g'.

Lemma ok_apply i d b : (forall u, In u d -> In u (prog i)) -> okB b -> okB (apply_all d b).
Proof.
  revert b; induction d as [|u d IH]; intros b Hd Hb; cbn; auto.
  apply IH; [intros; apply Hd; now right|]. eapply Hprog; eauto. apply Hd; now left.
Qed.
Lemma ok_run i : okB (run i).
Proof. apply ok_apply with (i := i); auto. Qed.

Lemma ok_each l g g' : okG g -> each (map run l) add g = Ok g' -> okG g'.
Proof.
  revert g; induction l as [|i l IH]; cbn; intros g Hg HE; [injection HE as <-; auto|].
  destruct (Hadd (run i) g (ok_run i) Hg) as (g1 & E & Hg1). rewrite E in HE. cbn in HE. eauto.
Qed.

Lemma reach_progress s : preach B G add n prog b0 g0 s -> ~ pfinal B G n s -> exists s', pstep B G add n prog s s'.
Proof.
  intros HR HF. destruct (pinv_reach s HR) as (rec & H1 & H2 & H3 & H4 & H5).
  destruct s as [f b c m g]. cbn [ph bufs chan mainp grd] in *. unfold pfinal in HF. cbn [mainp] in HF.
  destruct m as [k| |k].
  - destruct H5 as (H5 & H6 & ->). destruct (Nat.eq_dec (k + 1) n); eexists; [apply p_self; auto|apply p_spawn; lia].
  - destruct H5 as (H5 & (r & H6) & ->). destruct r as [|u r].
    + eexists. eapply p_send_self; [exact H6|lia|].
      assert (K : (length (c ++ [(n - 1)%nat]) <= n)%nat).
      { apply NoDup_below.
        - apply NoDup_snoc; [exact H2|]. intros K. apply (H3 (n - 1)%nat) in K. congruence.
        - intros i Hi. rewrite in_app_iff in Hi. destruct Hi as [Hi|[<-|[]]]; [|lia].
          apply (H3 i) in Hi. apply H5. rewrite Hi. discriminate. }
      rewrite app_length in K. cbn in K. lia.
    + eexists. eapply p_work; eauto.
  - destruct H5 as (H5 & H6 & H7).
    assert (HB : forall i, In i (rec ++ c) -> (i < n)%nat) by (intros i Hi; apply H5; apply H3 in Hi; rewrite Hi; discriminate).
    assert (HL : (length (rec ++ c) <= n)%nat) by (apply NoDup_below; auto). rewrite app_length in HL.
    assert (Hk : k <> n) by congruence.
    destruct c as [|i c].
    + assert (K : exists i, (i < n)%nat /\ ~ In i rec).
      { destruct (Forall_dec (fun i => In i rec) (fun i => in_dec Nat.eq_dec i rec) (seq 0 n)) as [HA|HA].
        - exfalso. assert (n <= length rec)%nat; [|lia]. rewrite <- (seq_length n 0) at 1.
          apply NoDup_incl_length; [apply seq_NoDup|]. intros i Hi. rewrite Forall_forall in HA. auto.
        - rewrite <- Exists_Forall_neg in HA; [|intros x; destruct (in_dec Nat.eq_dec x rec); auto].
          apply Exists_exists in HA. destruct HA as (i & Hi & Hr). apply in_seq in Hi. exists i. split; [lia|auto]. }
      destruct K as (i & Hi & Hr). rewrite app_nil_r in *.
      destruct (f i) as [|r|] eqn:E.
      * apply H5 in Hi. congruence.
      * destruct r as [|u r]; [|eexists; eapply p_work; eauto].
        eexists. eapply p_send; [exact E| |cbn; lia]. intros K. replace (n - 1)%nat with i in H6 by lia. congruence.
      * apply H3 in E. contradiction.
    + assert (ph_i : f i = Finished) by (apply H3; rewrite in_app_iff; right; now left).
      pose proof (H1 i) as Hb. rewrite ph_i in Hb.
      destruct (Hadd (b i) g) as (g' & E & _); [rewrite Hb; apply ok_run|eapply ok_each; eauto|].
      eexists. eapply p_recv; [cbn [length] in HL; lia|exact E].
Qed.

(** Termination. *)
Definition weight (i : nat) (p : wphase B) : nat :=
  match p with NotStarted => length (prog i) + 2 | Running r => length r + 1 | Finished => 0 end.
Definition measure (s : pstate B G) : nat :=
  list_sum (map (fun i => weight i (ph s i)) (seq 0 n)) + match mainp s with Receiving k => n - k | _ => n end.

Lemma sum_at f i p lo m : (lo <= i < lo + m)%nat ->
  (list_sum (map (fun j => weight j (at_ f i p j)) (seq lo m)) + weight i (f i) =
   list_sum (map (fun j => weight j (f j)) (seq lo m)) + weight i p)%nat.
Proof.
  revert lo; induction m as [|m IH]; intros lo H; [lia|]. cbn [seq map list_sum fold_right].
  destruct (Nat.eq_dec lo i) as [->|E].
  - rewrite at_eq.
    assert (K : map (fun j => weight j (at_ f i p j)) (seq (Datatypes.S i) m) = map (fun j => weight j (f j)) (seq (Datatypes.S i) m)).
    { apply map_ext_in. intros j Hj. apply in_seq in Hj. rewrite at_neq by lia. reflexivity. }
    unfold list_sum in *. rewrite K. lia.
  - rewrite (at_neq _ _ _ lo) by auto. specialize (IH (Datatypes.S lo)). unfold list_sum in *. lia.
Qed.

Lemma step_measure s s' : pinv s -> pstep B G add n prog s s' -> (measure s' < measure s)%nat.
Proof.
  intros (rec & H1 & H2 & H3 & H4 & H5) HS. unfold measure. destruct HS as [f b c g k H|f b c g k H|f b c m g i u rest H|f b c m g i H HI HC|f b c g i H HI HC|f b c k g g' i H H0]; cbn [ph bufs chan mainp grd] in *.
  - destruct H5 as (H5 & H6 & _).
    assert (HNS : f k = NotStarted). { specialize (H6 k). destruct (f k); auto; exfalso; assert (k < k)%nat by (apply H6; discriminate); lia. }
    pose proof (sum_at f k (Running (prog k)) 0 n ltac:(lia)) as K. rewrite HNS in K. cbn [weight] in K. lia.
  - destruct H5 as (H5 & H6 & _).
    assert (HNS : f k = NotStarted). { specialize (H6 k). destruct (f k); auto; exfalso; assert (k < k)%nat by (apply H6; discriminate); lia. }
    pose proof (sum_at f k (Running (prog k)) 0 n ltac:(lia)) as K. rewrite HNS in K. cbn [weight] in K. lia.
  - assert (Hi : (i < n)%nat).
    { assert (K : f i <> NotStarted) by (rewrite H; discriminate). destruct m as [k| |k]; [destruct H5 as (K' & H6 & _)|destruct H5 as (H6 & _)|destruct H5 as (H6 & _)];
        apply H6 in K; lia. }
    pose proof (sum_at f i (Running rest) 0 n ltac:(lia)) as K. rewrite H in K. cbn [weight length] in K. lia.
  - assert (Hi : (i < n)%nat).
    { assert (K : f i <> NotStarted) by (rewrite H; discriminate). destruct m as [k| |k]; [destruct H5 as (K' & H6 & _)|destruct H5 as (H6 & _)|destruct H5 as (H6 & _)];
        apply H6 in K; lia. }
    pose proof (sum_at f i Finished 0 n ltac:(lia)) as K. rewrite H in K. cbn [weight length] in K. lia.
  - pose proof (sum_at f i Finished 0 n ltac:(lia)) as K. rewrite H in K. cbn [weight length] in K. lia.
  - lia.
Qed.

Lemma reach_finite (ex : nat -> pstate B G) : ex O = pinit B G b0 g0 ->
  ~ (forall k, pstep B G add n prog (ex k) (ex (Datatypes.S k))).
Proof.
  intros H0 HS. assert (HR : forall k, preach B G add n prog b0 g0 (ex k)).
  { induction k; [rewrite H0; constructor|econstructor; eauto]. }
  assert (K : forall k, (measure (ex k) + k <= measure (ex O))%nat).
  { induction k; [lia|]. pose proof (step_measure _ _ (pinv_reach _ (HR k)) (HS k)). lia. }
  specialize (K (Datatypes.S (measure (ex O)))). lia.
Qed.

End W.
