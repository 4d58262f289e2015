(** The goroutines of HistFromFile under every schedule. *)
From Coq Require Import ZArith List Bool Lia Permutation Arith.
From Coq Require Import ZifyBool ZifyNat.
From Verif Require Import Base.Res Base.ResFacts Model.Render Model.Hist Spec.Work Proof.WorkersP.
Import ListNotations.

Ltac at_case j i := destruct (Nat.eq_dec j i) as [->|?]; [rewrite ?at_eq in *|rewrite ?(at_neq _ i _ j) in * by auto].

Lemma NoDup_below' n l : NoDup l -> (forall i, In i l -> (i < n)%nat) -> (length l <= n)%nat.
Proof.
  intros H1 H2. rewrite <- (seq_length n 0). apply NoDup_incl_length; auto.
  intros i Hi. apply in_seq. specialize (H2 i Hi). lia.
Qed.

Lemma sum_at' B (prog : nat -> list (B -> B)) f i p lo m : (lo <= i < lo + m)%nat ->
  (list_sum (map (fun j => weight B prog j (at_ f i p j)) (seq lo m)) + weight B prog i (f i) =
   list_sum (map (fun j => weight B prog j (f j)) (seq lo m)) + weight B prog i p)%nat.
Proof.
  revert lo; induction m as [|m IH]; intros lo H; [lia|]. cbn [seq map list_sum fold_right].
  destruct (Nat.eq_dec lo i) as [->|E].
  - rewrite at_eq.
    assert (K : map (fun j => weight B prog j (at_ f i p j)) (seq (Datatypes.S i) m) = map (fun j => weight B prog j (f j)) (seq (Datatypes.S i) m)).
    { apply map_ext_in. intros j Hj. apply in_seq in Hj. rewrite at_neq by lia. reflexivity. }
    unfold list_sum in *. rewrite K. lia.
  - rewrite (at_neq _ _ _ lo) by auto. specialize (IH (Datatypes.S lo)). unfold list_sum in *. lia.
Qed.

Section W.
Variables B G : Type.
Variable add : B -> G -> res G.
Variable n : nat.
Variable prog : nat -> list (B -> B).
Variable b0 : nat -> B.
Variable g0 : G.

Let apply_all (l : list (B -> B)) (b : B) : B := fold_left (fun b u => u b) l b.
Let run (i : nat) : B := apply_all (prog i) (b0 i).

Definition hinv (s : hstate B G) : Prop := exists rec,
  (forall i, match h_ph s i with
    | NotStarted => h_bufs s i = b0 i
    | Running rest => exists d, prog i = d ++ rest /\ h_bufs s i = apply_all d (b0 i)
    | Finished => h_bufs s i = run i end) /\
  NoDup (rec ++ h_chan s) /\ (forall i, In i (rec ++ h_chan s) <-> h_ph s i = Finished) /\
  each (map run rec) add g0 = Ok (h_counts s) /\
  match h_main s with
  | HSpawn k => (k <= n)%nat /\ (forall i, (i < k)%nat <-> h_ph s i <> NotStarted) /\ rec = []
  | HRecv k => (forall i, (i < n)%nat <-> h_ph s i <> NotStarted) /\ length rec = k
  end.

Lemma hinv_init : hinv (hinit B G b0 g0).
Proof. exists []. cbn. repeat split; auto; try constructor; try contradiction; try discriminate; try lia. Qed.

Lemma hinv_step s s' : hinv s -> hstep B G add n prog s s' -> hinv s'.
Proof.
  intros (rec & H1 & H2 & H3 & H4 & H5) HS. destruct HS as [f b c g k H|f b c g|f b c m g i u rest H|f b c m g i H HC|f b c k g g' i H H0]; cbn [h_ph h_bufs h_chan h_main h_counts] in *.
  - exists rec. cbn [h_ph h_bufs h_chan h_main h_counts]. destruct H5 as (H5 & H6 & ->).
    assert (HNS : f k = NotStarted). { specialize (H6 k). destruct (f k); auto; exfalso; assert (k < k)%nat by (apply H6; discriminate); lia. }
    split; [|split; [auto|split; [|split; [auto|split; [lia|split; [|auto]]]]]].
    + intros i. at_case i k; [|apply H1]. exists []. split; auto. specialize (H1 k). now rewrite HNS in H1.
    + intros i. rewrite H3. at_case i k; [|tauto]. rewrite HNS. split; discriminate.
    + intros i. at_case i k; [split; [discriminate|lia]|]. rewrite <- H6. lia.
  - exists rec. cbn [h_ph h_bufs h_chan h_main h_counts]. destruct H5 as (H5 & H6 & ->). repeat (split; [assumption|]). reflexivity.
  - exists rec. cbn [h_ph h_bufs h_chan h_main h_counts]. split; [|split; [auto|split; [|split; [auto|]]]].
    + intros j. at_case j i; [|apply H1]. specialize (H1 i). rewrite H in H1. destruct H1 as (d & E1 & E2).
      exists (d ++ [u]). split; [rewrite <- app_assoc; exact E1|].
      unfold apply_all. rewrite fold_left_app. cbn [fold_left]. unfold apply_all in E2. now rewrite <- E2.
    + intros j. rewrite H3. at_case j i; [|tauto]. rewrite H. split; discriminate.
    + assert (HP : forall j, at_ f i (Running rest) j <> NotStarted <-> f j <> NotStarted).
      { intros j. at_case j i; [|tauto]. rewrite H. split; discriminate. }
      destruct m as [k|k].
      * destruct H5 as (H5 & H6 & H7). split; [auto|split; [|auto]]. intros j. now rewrite HP.
      * destruct H5 as (H5 & H7). split; [intros j; now rewrite HP|auto].
  - exists rec. cbn [h_ph h_bufs h_chan h_main h_counts].
    assert (HNI : ~ In i (rec ++ c)) by (rewrite H3; rewrite H; discriminate).
    split; [|split; [|split; [|split; [auto|]]]].
    + intros j. at_case j i; [|apply H1]. specialize (H1 i). rewrite H in H1. destruct H1 as (d & E1 & E2).
      rewrite app_nil_r in E1. unfold run. now rewrite E1.
    + rewrite app_assoc. now apply NoDup_snoc.
    + intros j. rewrite app_assoc, in_app_iff. cbn [In]. at_case j i; [tauto|]. rewrite H3. split; [intros [K|[K|K]]; auto; [congruence|contradiction]|tauto].
    + assert (HP : forall j, at_ f i Finished j <> NotStarted <-> f j <> NotStarted).
      { intros j. at_case j i; [|tauto]. rewrite H. split; discriminate. }
      destruct m as [k|k].
      * destruct H5 as (H5 & H6 & H7). split; [auto|split; [|auto]]. intros j. now rewrite HP.
      * destruct H5 as (H5 & H7). split; [intros j; now rewrite HP|auto].
  - exists (rec ++ [i]). cbn [h_ph h_bufs h_chan h_main h_counts].
    assert (EA : (rec ++ [i]) ++ c = rec ++ i :: c) by (rewrite <- app_assoc; reflexivity).
    split; [|split; [|split; [|split]]]; auto.
    + now rewrite EA.
    + intros j. rewrite EA. apply H3.
    + rewrite map_app, each_app, H4. cbn [bind map each].
      assert (ph_i : f i = Finished) by (apply H3; rewrite in_app_iff; right; now left).
      specialize (H1 i). rewrite ph_i in H1. rewrite <- H1, H0. reflexivity.
    + destruct H5 as (H5 & H7). split; auto. rewrite app_length. cbn. lia.
Qed.

Lemma hinv_reach s : hreach B G add n prog b0 g0 s -> hinv s.
Proof. induction 1; [apply hinv_init|eapply hinv_step; eauto]. Qed.

Lemma hreach_final s : hreach B G add n prog b0 g0 s -> hfinal B G n s ->
  exists order, Permutation order (seq 0 n) /\ each (map run order) add g0 = Ok (h_counts s).
Proof.
  intros HR HF. destruct (hinv_reach s HR) as (rec & H1 & H2 & H3 & H4 & H5).
  unfold hfinal in HF. rewrite HF in H5. destruct H5 as (H5 & H7). exists rec. split; auto.
  assert (HB : forall i, In i (rec ++ h_chan s) -> (i < n)%nat) by (intros i Hi; apply H5; apply H3 in Hi; rewrite Hi; discriminate).
  assert (HN : NoDup rec) by (eapply NoDup_app_l; eauto).
  apply NoDup_Permutation_bis; auto.
  - rewrite seq_length. lia.
  - intros i Hi. apply in_seq. specialize (HB i). rewrite in_app_iff in HB. specialize (HB (or_introl Hi)). lia.
Qed.

Variables (okB : B -> Prop) (okG : G -> Prop).
Hypothesis HB0 : forall i, okB (run i).
Hypothesis HG0 : okG g0.
Hypothesis Hadd : forall b g, okB b -> okG g -> exists g', add b g = Ok g' /\ okG g'.

Lemma h_ok_each l g g' : okG g -> each (map run l) add g = Ok g' -> okG g'.
Proof.
  revert g; induction l as [|i l IH]; cbn; intros g Hg HE; [injection HE as <-; auto|].
  destruct (Hadd (run i) g (HB0 i) Hg) as (g1 & E & Hg1). rewrite E in HE. cbn in HE. eauto.
Qed.

Lemma hreach_progress s : hreach B G add n prog b0 g0 s -> ~ hfinal B G n s -> exists s', hstep B G add n prog s s'.
Proof.
  intros HR HF. destruct (hinv_reach s HR) as (rec & H1 & H2 & H3 & H4 & H5).
  destruct s as [f b c m g]. cbn [h_ph h_bufs h_chan h_main h_counts] in *. unfold hfinal in HF. cbn [h_main] in HF.
  destruct m as [k|k].
  - destruct H5 as (H5 & H6 & ->). destruct (Nat.eq_dec k n) as [->|E]; eexists; [apply h_spawned|apply h_spawn; lia].
  - destruct H5 as (H5 & H7).
    assert (HB : forall i, In i (rec ++ c) -> (i < n)%nat) by (intros i Hi; apply H5; apply H3 in Hi; rewrite Hi; discriminate).
    assert (HL : (length (rec ++ c) <= n)%nat) by (apply NoDup_below'; auto). rewrite app_length in HL.
    assert (Hk : k <> n) by congruence.
    destruct c as [|i c].
    + assert (K : exists i, (i < n)%nat /\ ~ In i rec).
      { destruct (Forall_dec (fun i => In i rec) (fun i => in_dec Nat.eq_dec i rec) (seq 0 n)) as [HA|HA].
        - exfalso. assert (n <= length rec)%nat; [|cbn in HL; lia]. rewrite <- (seq_length n 0) at 1.
          apply NoDup_incl_length; [apply seq_NoDup|]. intros i Hi. rewrite Forall_forall in HA. auto.
        - rewrite <- Exists_Forall_neg in HA; [|intros x; destruct (in_dec Nat.eq_dec x rec); auto].
          apply Exists_exists in HA. destruct HA as (i & Hi & Hr). apply in_seq in Hi. exists i. split; [lia|auto]. }
      destruct K as (i & Hi & Hr). rewrite app_nil_r in *.
      destruct (f i) as [|r|] eqn:E.
      * apply H5 in Hi. congruence.
      * destruct r as [|u r]; [|eexists; eapply h_work; eauto].
        eexists. eapply h_send; [exact E|cbn; lia].
      * apply H3 in E. contradiction.
    + assert (ph_i : f i = Finished) by (apply H3; rewrite in_app_iff; right; now left).
      pose proof (H1 i) as Hb. rewrite ph_i in Hb.
      destruct (Hadd (b i) g) as (g' & E & _); [rewrite Hb; apply HB0|eapply h_ok_each; eauto|].
      eexists. eapply h_recv; [cbn [length] in HL; lia|exact E].
Qed.

Definition hmeasure (s : hstate B G) : nat :=
  list_sum (map (fun i => weight B prog i (h_ph s i)) (seq 0 n)) + match h_main s with HRecv k => n - k | HSpawn _ => n + 1 end.

Lemma hstep_measure s s' : hinv s -> hstep B G add n prog s s' -> (hmeasure s' < hmeasure s)%nat.
Proof.
  intros (rec & H1 & H2 & H3 & H4 & H5) HS. unfold hmeasure. destruct HS as [f b c g k H|f b c g|f b c m g i u rest H|f b c m g i H HC|f b c k g g' i H H0]; cbn [h_ph h_bufs h_chan h_main h_counts] in *.
  - destruct H5 as (H5 & H6 & _).
    assert (HNS : f k = NotStarted). { specialize (H6 k). destruct (f k); auto; exfalso; assert (k < k)%nat by (apply H6; discriminate); lia. }
    pose proof (sum_at' B prog f k (Running (prog k)) 0 n ltac:(lia)) as K. rewrite HNS in K. cbn [weight] in K. lia.
  - lia.
  - assert (Hi : (i < n)%nat).
    { assert (K : f i <> NotStarted) by (rewrite H; discriminate). destruct m as [k|k]; [destruct H5 as (K' & H6 & _)|destruct H5 as (H6 & _)]; apply H6 in K; lia. }
    pose proof (sum_at' B prog f i (Running rest) 0 n ltac:(lia)) as K. rewrite H in K. cbn [weight length] in K. lia.
  - assert (Hi : (i < n)%nat).
    { assert (K : f i <> NotStarted) by (rewrite H; discriminate). destruct m as [k|k]; [destruct H5 as (K' & H6 & _)|destruct H5 as (H6 & _)]; apply H6 in K; lia. }
    pose proof (sum_at' B prog f i Finished 0 n ltac:(lia)) as K. rewrite H in K. cbn [weight length] in K. lia.
  - lia.
Qed.

Lemma hreach_finite (ex : nat -> hstate B G) : ex O = hinit B G b0 g0 ->
  ~ (forall k, hstep B G add n prog (ex k) (ex (Datatypes.S k))).
Proof.
  intros H0 HS. assert (HR : forall k, hreach B G add n prog b0 g0 (ex k)).
  { induction k; [rewrite H0; constructor|econstructor; eauto]. }
  assert (K : forall k, (hmeasure (ex k) + k <= hmeasure (ex O))%nat).
  { induction k; [lia|]. pose proof (hstep_measure _ _ (hinv_reach _ (HR k)) (HS k)). lia. }
  specialize (K (Datatypes.S (hmeasure (ex O)))). lia.
Qed.
End W.

Open Scope Z_scope.
(** Adding a histogram to the counts. *)
Lemma add_counts_ok bins h counts : 0 <= bins -> bins <= zlen h -> bins <= zlen counts ->
  exists counts', add_counts bins h counts = Ok counts' /\ zlen counts' = zlen counts /\
    forall j, 0 <= j < bins -> zn 0 counts' j = zn 0 counts j + zn 0 h j.
Proof.
  intros HB HH HC. unfold add_counts.
  assert (K : wp (for_ 0 bins (fun j counts => bind (get counts j) (fun a => bind (get h j) (fun b => set counts j (a + b)))) counts)
    (fun c => zlen c = zlen counts /\ (forall j, 0 <= j < bins -> zn 0 c j = zn 0 counts j + zn 0 h j) /\ forall j, bins <= j -> zn 0 c j = zn 0 counts j)).
  { apply (for_inv (fun i c => zlen c = zlen counts /\ (forall j, 0 <= j < i -> zn 0 c j = zn 0 counts j + zn 0 h j) /\ forall j, i <= j -> zn 0 c j = zn 0 counts j)); [auto|repeat split; auto; lia|].
    intros i c Hi (E1 & E2 & E3). rewrite (get_ok 0 c), (get_ok 0 h) by lia. cbn [bind]. unfold wp. rewrite set_ok by lia.
    rewrite zlen_upd. split; auto. split; intros j Hj.
    - destruct (Z.eq_dec j i) as [->|NE]; [rewrite zn_upd_eq by lia; now rewrite E3 by lia|rewrite zn_upd_neq by lia; apply E2; lia].
    - rewrite zn_upd_neq by lia. apply E3. lia. }
  apply (proj1 (wp_ok _ _)) in K. destruct K as (c & E & E1 & E2 & _). eauto.
Qed.

Lemma each_add_counts bins (run : nat -> list Z) l : 0 <= bins -> (forall i, bins <= zlen (run i)) -> forall g, bins <= zlen g ->
  exists g', each (map run l) (add_counts bins) g = Ok g' /\ zlen g' = zlen g /\
    forall j, 0 <= j < bins -> zn 0 g' j = zn 0 g j + fold_right Z.add 0 (map (fun i => zn 0 (run i) j) l).
Proof.
  intros HB HR. induction l as [|i l IH]; intros g Hg; cbn [map each].
  - exists g. split; [reflexivity|]. split; auto. intros j Hj. cbn [fold_right]. lia.
  - destruct (add_counts_ok bins (run i) g HB (HR i) Hg) as (g1 & E1 & L1 & J1). rewrite E1. cbn [bind].
    destruct (IH g1) as (g2 & E2 & L2 & J2); [lia|]. exists g2. split; auto. split; [lia|].
    intros j Hj. rewrite J2, J1 by auto. cbn [fold_right]. lia.
Qed.

Lemma sum_perm (f : nat -> Z) l l' : Permutation l l' -> fold_right Z.add 0 (map f l) = fold_right Z.add 0 (map f l').
Proof. induction 1; cbn [map fold_right]; lia. Qed.
