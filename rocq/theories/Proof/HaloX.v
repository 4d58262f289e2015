(** Cross matching: every list gets its hosts, then everything is sorted. *)
From Coq Require Import ZArith List Bool Lia ZifyBool ZifyNat Sorted Permutation.
From Verif Require Import Base.Res Base.ResFacts Base.Num Model.Halo.
From Verif Require Import Spec.Work Proof.WorkP Proof.HaloP.
Import ListNotations.
Open Scope Z_scope.

Lemma flat_map_ext_in' {A B} (f g : A -> list B) l : (forall a, In a l -> f a = g a) -> flat_map f l = flat_map g l.
Proof. induction l as [|a l IH]; intros H; cbn [flat_map]; auto. rewrite H by now left. f_equal. apply IH. intros; apply H; now right. Qed.

(** ** Concatenated lists *)
Definition off (L : Z -> list Z) (i : Z) : Z := zlen (flat_map L (zseq i)).

Lemma off_0 L : off L 0 = 0.
Proof. reflexivity. Qed.
Lemma off_succ L i : 0 <= i -> off L (i + 1) = off L i + zlen (L i).
Proof. intros H. unfold off. rewrite zseq_succ, flat_map_app, zlen_app by auto. cbn [flat_map]. now rewrite app_nil_r. Qed.
Lemma off_nonneg L i : 0 <= off L i.
Proof. apply zlen_nonneg. Qed.
Lemma off_mono L i j : 0 <= i <= j -> off L i <= off L j.
Proof.
  intros H. replace j with (i + (j - i)) by lia. assert (K : 0 <= j - i) by lia. revert K. generalize (j - i). clear H j.
  intros d Hd. destruct (Z_le_gt_dec 0 i) as [Hi|Hi].
  - revert d Hd. apply natlike_ind; [rewrite Z.add_0_r; lia|]. intros d Hd IH. unfold Z.succ. rewrite Z.add_assoc, off_succ by lia.
    pose proof (zlen_nonneg (L (i + d))). lia.
  - unfold off, zseq. replace (Z.to_nat i) with 0%nat by lia. cbn. pose proof (zlen_nonneg (flat_map L (map Z.of_nat (seq 0 (Z.to_nat (i + d)))))). unfold zlen in *. cbn. lia.
Qed.
Lemma off_block L i j : 0 <= i < j -> off L i + zlen (L i) <= off L j.
Proof. intros H. rewrite <- off_succ by lia. apply off_mono. lia. Qed.
Lemma off_app A B i : 0 <= i -> off (fun k => A k ++ B k) i = off A i + off B i.
Proof.
  revert i. apply natlike_ind; [reflexivity|]. intros i Hi IH. unfold Z.succ. rewrite !off_succ by auto. rewrite zlen_app. lia.
Qed.
Lemma off_ext A B i : 0 <= i -> (forall k, 0 <= k < i -> zlen (A k) = zlen (B k)) -> off A i = off B i.
Proof.
  intros Hi. revert i Hi. apply (natlike_ind (fun i => (forall k, 0 <= k < i -> zlen (A k) = zlen (B k)) -> off A i = off B i)); [reflexivity|].
  intros i Hi IH H. unfold Z.succ. rewrite !off_succ by auto. rewrite (H i) by lia. rewrite IH; auto. intros; apply H; lia.
Qed.

Lemma zseq_split i n : 0 <= i < n -> exists r, zseq n = zseq i ++ i :: r /\ zseq n = zseq (i + 1) ++ r /\ forall x, In x r -> i < x.
Proof.
  intros H. exists (map Z.of_nat (seq (S (Z.to_nat i)) (Z.to_nat (n - i - 1)))).
  assert (E : zseq n = zseq (i + 1) ++ map Z.of_nat (seq (S (Z.to_nat i)) (Z.to_nat (n - i - 1)))).
  { unfold zseq. rewrite <- map_app. f_equal. replace (Z.to_nat n) with (Z.to_nat (i + 1) + Z.to_nat (n - i - 1))%nat by lia.
    rewrite seq_app. do 2 f_equal. lia. }
  split; [rewrite E, zseq_succ by lia; now rewrite <- app_assoc|]. split; auto.
  intros x Hx. apply in_map_iff in Hx. destruct Hx as (k & <- & Hk). apply in_seq in Hk. lia.
Qed.

Lemma zn_flat L i n k : 0 <= i < n -> 0 <= k < zlen (L i) -> zn 0 (flat_map L (zseq n)) (off L i + k) = zn 0 (L i) k.
Proof.
  intros Hi Hk. destruct (zseq_split i n Hi) as (r & E & _ & _). rewrite E, flat_map_app. cbn [flat_map].
  pose proof (off_nonneg L i). unfold off in *. rewrite zn_app by lia.
  replace (_ <? _) with false by lia. rewrite zn_app by lia. replace (_ <? _) with true by lia. f_equal. lia.
Qed.

Definition starts_ok (starts : list Z) (L : Z -> list Z) (n : Z) : Prop :=
  zlen starts = n /\ forall i, 0 <= i < n -> zn 0 starts i = off L i.

Lemma start_end_ok starts subs L n i : starts_ok starts L n -> zlen subs = off L n -> 0 <= i < n ->
  start_end (SF starts subs) i = Ok (off L i, off L (i + 1)).
Proof.
  intros (Hl & Hs) Hn Hi. unfold start_end. cbn [sf_starts sf_subs]. rewrite (get_ok 0) by lia. cbn [bind]. rewrite Hl, Hs by lia.
  destruct (Z.eqb_spec i (n - 1)) as [->|Ni].
  - rewrite Hn. do 2 f_equal. f_equal. lia.
  - rewrite (get_ok 0) by lia. cbn [bind]. now rewrite Hs by lia.
Qed.

Lemma slice_flat L i n : 0 <= i < n -> slice (flat_map L (zseq n)) (off L i) (off L (i + 1)) = Ok (L i).
Proof.
  intros Hi. rewrite off_succ by lia. destruct (zseq_split i n Hi) as (r & E & _ & _). rewrite E, flat_map_app. cbn [flat_map].
  pose proof (zlen_nonneg (L i)). pose proof (off_nonneg L i). pose proof (zlen_nonneg (flat_map L r)).
  rewrite slice_ok by (unfold off in *; rewrite ?zlen_app; lia). f_equal. unfold off, zlen.
  rewrite skipn_app, Nat2Z.id. rewrite skipn_all, Nat.sub_diag. cbn [app skipn].
  rewrite firstn_app. rewrite firstn_all2 by lia. replace (_ - _)%nat with 0%nat by lia. cbn [firstn]. apply app_nil_r.
Qed.

Lemma intersects_ok starts L n i : starts_ok starts L n -> 0 <= i < n ->
  intersects (SF starts (flat_map L (zseq n))) i = Ok (L i).
Proof.
  intros Hs Hi. unfold intersects. rewrite (start_end_ok _ _ L n) by auto. cbn [bind sf_subs]. now apply slice_flat.
Qed.

Lemma NoDup_app' {A} (l1 l2 : list A) : NoDup l1 -> NoDup l2 -> (forall x, In x l1 -> ~ In x l2) -> NoDup (l1 ++ l2).
Proof.
  induction 1 as [|a l Ha N IH]; intros N2 H; cbn [app]; auto. constructor.
  - rewrite in_app_iff. intros [K|K]; [auto|]. apply (H a); auto with datatypes.
  - apply IH; auto. intros x Hx. apply H. now right.
Qed.

(** ** Loops over lists *)
Lemma each_app {A S} (b : A -> S -> res S) l1 l2 : forall s, each (l1 ++ l2) b s = bind (each l1 b s) (each l2 b).
Proof. induction l1 as [|a l IH]; intros s; cbn [each app bind]; auto. destruct (b a s); cbn [bind]; auto. Qed.

Lemma each_flat_map {A B S} (F : A -> list B) (b : B -> S -> res S) l : forall s,
  each (flat_map F l) b s = each l (fun a => each (F a) b) s.
Proof.
  induction l as [|a l IH]; intros s; cbn [each flat_map]; auto. rewrite each_app. destruct (each (F a) b s); cbn [bind]; auto.
Qed.

Lemma each_inv {A S} (J : list A -> S -> Prop) (b : A -> S -> res S) l s : J [] s ->
  (forall P a r s, l = P ++ a :: r -> J P s -> wp (b a s) (J (P ++ [a]))) -> wp (each l b s) (J l).
Proof.
  intros H0 HS. assert (K : forall r P s, l = P ++ r -> J P s -> wp (each r b s) (J l)).
  { induction r as [|a r IH]; intros P t E HP; cbn [each].
    - rewrite app_nil_r in E. now subst.
    - apply wp_bind. eapply wp_mono; [apply (HS P a r); eauto|]. cbn. intros t' Ht. apply (IH (P ++ [a])); auto. now rewrite <- app_assoc. }
  now apply (K l []).
Qed.

Lemma for_slice {S} (src : list Z) (k : Z -> S -> res S) l : forall s st,
  0 <= s -> s + zlen l <= zlen src -> (forall j, 0 <= j < zlen l -> zn 0 src (s + j) = zn 0 l j) ->
  for_ s (s + zlen l) (fun t st => v <- get src t ;; k v st)%res st = each l k st.
Proof.
  induction l as [|a l IH]; intros s st Hs Hl Hz.
  - rewrite for_empty; auto. change (zlen []) with 0. lia.
  - rewrite zlen_cons in *. pose proof (zlen_nonneg l). rewrite for_step by lia. rewrite (get_ok 0) by lia. cbn [bind each].
    pose proof (Hz 0 ltac:(lia)) as E. rewrite Z.add_0_r in E. rewrite E. change (zn 0 (a :: l) 0) with a.
    destruct (k a st) as [st'| | |]; cbn [bind]; auto.
    replace (s + (1 + zlen l)) with (s + 1 + zlen l) by lia. apply IH; try lia.
    intros j Hj. replace (s + 1 + j) with (s + (j + 1)) by lia. rewrite Hz by lia. unfold zn.
    replace (Z.to_nat (j + 1)) with (Datatypes.S (Z.to_nat j)) by lia. reflexivity.
Qed.

Definition pairs (L : Z -> list Z) (n : Z) : list (Z * Z) := flat_map (fun i => map (pair i) (L i)) (zseq n).

Lemma for_pairs {S} (L : Z -> list Z) n (body : Z -> S -> res S) (k : Z -> Z -> S -> res S) s : 0 <= n ->
  (forall i s, 0 <= i < n -> body i s = each (L i) (k i) s) ->
  for_ 0 n body s = each (pairs L n) (fun p => k (fst p) (snd p)) s.
Proof.
  intros Hn HB. unfold pairs. rewrite each_flat_map.
  rewrite (for_each (fun t => t) body) by auto. rewrite map_id. apply each_ext. intros i st Hi. apply in_zseq in Hi.
  rewrite HB by auto. rewrite each_map. reflexivity.
Qed.

(** ** Transposing a list of pairs *)
Definition tr (P : list (Z * Z)) (sh : Z) : list Z := map fst (filter (fun p => snd p =? sh) P).

Lemma tr_app P Q sh : tr (P ++ Q) sh = tr P sh ++ tr Q sh.
Proof. unfold tr. now rewrite filter_app, map_app. Qed.
Lemma tr_one a sh : tr [a] sh = if snd a =? sh then [fst a] else [].
Proof. unfold tr. cbn. now destruct (snd a =? sh). Qed.
Lemma in_tr P sh i : In i (tr P sh) <-> In (i, sh) P.
Proof.
  unfold tr. rewrite in_map_iff. split.
  - intros ([a b] & <- & H). apply filter_In in H. cbn in *. destruct H as [H E]. apply Z.eqb_eq in E. now subst.
  - intros H. exists (i, sh). split; auto. apply filter_In. cbn. split; auto. apply Z.eqb_refl.
Qed.
Lemma off_tr P n : 0 <= n -> (forall p, In p P -> 0 <= snd p < n) -> off (tr P) n = zlen P.
Proof.
  intros Hn. induction P as [|a P IH]; intros H.
  - clear H. change (zlen (@nil (Z * Z))) with 0. revert n Hn. apply natlike_ind; [reflexivity|].
    intros n Hn E. unfold Z.succ. rewrite off_succ by auto. cbn. unfold zlen. cbn. lia.
  - rewrite zlen_cons, <- IH by auto with datatypes. specialize (H a (or_introl eq_refl)).
    change (a :: P) with ([a] ++ P).
    assert (K : forall i, 0 <= i -> off (tr ([a] ++ P)) i = (if snd a <? i then 1 else 0) + off (tr P) i).
    { apply natlike_ind; [cbn; replace (snd a <? 0) with false by lia; reflexivity|]. intros i Hi E. unfold Z.succ.
      rewrite !off_succ by auto. rewrite E, tr_app, zlen_app, tr_one. destruct (Z.eqb_spec (snd a) i).
      - replace (snd a <? i) with false by lia. replace (snd a <? i + 1) with true by lia. change (zlen [fst a]) with 1. lia.
      - change (zlen (@nil Z)) with 0. destruct (Z.ltb_spec (snd a) i), (Z.ltb_spec (snd a) (i + 1)); lia. }
    rewrite K by auto. replace (snd a <? n) with true by lia. lia.
Qed.

(** ** The steps of crossMatch *)
Section Cross.
Variables (L : Z -> list Z) (n : Z) (starts : list Z).
Hypothesis Hn : 1 <= n.
Hypothesis HL : forall i j, 0 <= i < n -> In j (L i) -> 0 <= j < n.
Hypothesis Hst : starts_ok starts L n.
Let subs := flat_map L (zseq n).
Let PP := pairs L n.
Let T := tr PP.

Lemma subs_len : zlen subs = off L n.
Proof. reflexivity. Qed.

Lemma in_PP i j : In (i, j) PP <-> 0 <= i < n /\ In j (L i).
Proof.
  unfold PP, pairs. rewrite in_flat_map. split.
  - intros (k & Hk & H). apply in_zseq in Hk. apply in_map_iff in H. destruct H as (j' & E & Hj). inversion E; subst. auto.
  - intros [A B]. exists i. split; [now apply in_zseq|]. apply in_map_iff. eauto.
Qed.
Lemma PP_snd p : In p PP -> 0 <= snd p < n.
Proof. destruct p as [i j]. intros H. apply in_PP in H. destruct H. cbn. eauto. Qed.
Lemma PP_len : zlen PP = off L n.
Proof.
  unfold PP, pairs, off, zlen. f_equal. induction (zseq n) as [|i l IH]; cbn [flat_map]; auto.
  rewrite !app_length, map_length. congruence.
Qed.
Lemma T_len : off T n = off L n.
Proof. unfold T. rewrite off_tr; [apply PP_len|lia|apply PP_snd]. Qed.
Lemma in_T i j : In i (T j) <-> 0 <= i < n /\ In j (L i).
Proof. unfold T. rewrite in_tr. apply in_PP. Qed.

Lemma inner {S} (k : Z -> Z -> S -> res S) i s : 0 <= i < n ->
  ('(a, e) <- start_end (SF starts subs) i ;; for_ a e (fun t st => sh <- get subs t ;; k i sh st) s)%res = each (L i) (k i) s.
Proof.
  intros Hi. rewrite (start_end_ok _ _ L n) by auto using subs_len. cbn [bind]. rewrite off_succ by lia.
  apply for_slice; [apply off_nonneg|rewrite subs_len; apply off_block; lia|]. intros j Hj. now apply zn_flat.
Qed.

Lemma counts_ok : exists c, cm_counts (SF starts subs) = Ok c /\ zlen c = n /\
  forall sh, 0 <= sh < n -> zn 0 c sh = zlen (T sh).
Proof.
  unfold cm_counts. cbn [sf_starts sf_subs]. destruct Hst as [El _]. rewrite El.
  rewrite (for_pairs L n _ (fun _ sh c => v <- get c sh ;; set c sh (v + 1))%res) by (try lia; intros; now apply (inner (fun _ sh c => v <- get c sh ;; set c sh (v + 1))%res)).
  fold PP. apply (proj1 (wp_ok _ _)). apply (each_inv (fun P c => zlen c = n /\ forall sh, 0 <= sh < n -> zn 0 c sh = zlen (tr P sh))).
  - split; [rewrite zlen_repeat; lia|]. intros sh Hsh. rewrite zn_repeat by lia. reflexivity.
  - intros P [i j] r c E [A B]. assert (Hj : 0 <= j < n) by (apply (PP_snd (i, j)); rewrite E; auto with datatypes).
    cbn [fst snd]. rewrite (get_ok 0) by lia. cbn [bind]. rewrite set_ok by lia. cbn [wp]. split; [now rewrite zlen_upd|].
    intros sh Hsh. rewrite zn_upd by lia. rewrite tr_app, zlen_app, tr_one. cbn [fst snd].
    destruct (Z.eqb_spec sh j) as [->|].
    + rewrite B by lia. rewrite Z.eqb_refl. change (zlen [i]) with 1. lia.
    + rewrite B by lia. replace (j =? sh) with false by lia. change (zlen (@nil Z)) with 0. lia.
Qed.

Lemma hstarts_ok c : zlen c = n -> (forall sh, 0 <= sh < n -> zn 0 c sh = zlen (T sh)) ->
  exists h, cm_starts c = Ok h /\ starts_ok h T n.
Proof.
  intros A B. unfold cm_starts. rewrite A. apply (proj1 (wp_ok _ _)).
  eapply wp_mono; [apply (for_inv (fun t h => zlen h = n /\ forall i, 0 <= i < t -> zn 0 h i = off T i)); auto|].
  - split; [rewrite zlen_repeat; lia|]. intros i Hi. rewrite zn_repeat by lia. replace i with 0 by lia. reflexivity.
  - intros t h Ht (Lh & Hh). rewrite (get_ok 0) by lia. cbn [bind]. rewrite (get_ok 0) by lia. cbn [bind]. rewrite set_ok by lia. cbn [wp].
    split; [now rewrite zlen_upd|]. intros i Hi. rewrite zn_upd by lia. destruct (Z.eqb_spec i t) as [->|].
    + rewrite Hh, B by lia. rewrite <- off_succ by lia. f_equal. lia.
    + apply Hh. lia.
  - cbn. auto.
Qed.

Lemma hosts_ok h : starts_ok h T n -> exists hs h', cm_hosts (SF starts subs) h = Ok (hs, h') /\ zlen hs = off T n /\ zlen h' = n /\
  (forall sh, 0 <= sh < n -> zn 0 h' sh = off T sh + zlen (T sh)) /\
  (forall sh k, 0 <= sh < n -> 0 <= k < zlen (T sh) -> zn 0 hs (off T sh + k) = zn 0 (T sh) k).
Proof.
  intros [A B]. unfold cm_hosts. cbn [sf_starts sf_subs]. destruct Hst as [El _]. rewrite El.
  set (kk := fun ih sh (s : list Z * list Z) => (let '(hs, st) := s in p <- get st sh ;; hs <- set hs p ih ;; st <- set st sh (p + 1) ;; Ok (hs, st))%res).
  rewrite (for_pairs L n _ kk); [|lia|].
  2:{ intros i [hs st] Hi. rewrite <- (inner kk i (hs, st) Hi). destruct (start_end _ i) as [[a e]| | |]; cbn [bind]; auto.
      apply for_ext. intros t [hs' st'] Ht. unfold kk. destruct (get subs t); reflexivity. }
  fold PP.
  assert (K : wp (each PP (fun p => kk (fst p) (snd p)) (repeat 0 (Z.to_nat (zlen subs)), h)) (fun s => zlen (fst s) = off T n /\ zlen (snd s) = n /\
    (forall sh, 0 <= sh < n -> zn 0 (snd s) sh = off T sh + zlen (tr PP sh)) /\
    (forall sh k, 0 <= sh < n -> 0 <= k < zlen (tr PP sh) -> zn 0 (fst s) (off T sh + k) = zn 0 (tr PP sh) k))).
  { apply (each_inv (fun P s => zlen (fst s) = off T n /\ zlen (snd s) = n /\
      (forall sh, 0 <= sh < n -> zn 0 (snd s) sh = off T sh + zlen (tr P sh)) /\
      (forall sh k, 0 <= sh < n -> 0 <= k < zlen (tr P sh) -> zn 0 (fst s) (off T sh + k) = zn 0 (tr P sh) k))).
    - cbn [fst snd]. rewrite zlen_repeat, T_len, subs_len. split; [pose proof (off_nonneg L n); lia|]. split; auto. split.
      + intros sh Hsh. rewrite B by auto. change (tr [] sh) with (@nil Z). change (zlen []) with 0. lia.
      + intros sh k Hsh Hk. change (tr [] sh) with (@nil Z) in Hk. change (zlen []) with 0 in Hk. lia.
    - intros P [i j] r [hs st] E (L1 & L2 & E1 & E2). cbn [fst snd] in *.
      assert (Hj : 0 <= j < n) by (apply (PP_snd (i, j)); rewrite E; auto with datatypes).
      assert (HT : forall sh, T sh = tr P sh ++ (if j =? sh then [i] else []) ++ tr r sh).
      { intros sh. unfold T. rewrite E. change ((i, j) :: r) with ([(i, j)] ++ r). rewrite !tr_app, tr_one. reflexivity. }
      assert (HB : off T j + zlen (tr P j) < off T (j + 1)).
      { rewrite off_succ by lia. rewrite HT, !zlen_app, Z.eqb_refl. change (zlen [i]) with 1. pose proof (zlen_nonneg (tr r j)). lia. }
      pose proof (off_mono T (j + 1) n ltac:(lia)) as HM. pose proof (off_nonneg T j). pose proof (zlen_nonneg (tr P j)).
      unfold kk. rewrite (get_ok 0) by lia. cbn [bind]. rewrite E1 by lia. rewrite set_ok by lia. cbn [bind]. rewrite set_ok by lia. cbn [bind wp fst snd].
      rewrite !zlen_upd. split; auto. split; auto. split.
      + intros sh Hsh. rewrite zn_upd by lia. rewrite tr_app, zlen_app, tr_one. cbn [fst snd]. destruct (Z.eqb_spec sh j) as [->|].
        * rewrite Z.eqb_refl. change (zlen [i]) with 1. lia.
        * rewrite E1 by lia. replace (j =? sh) with false by lia. change (zlen (@nil Z)) with 0. lia.
      + intros sh k Hsh Hk. rewrite tr_app, zlen_app, tr_one in *. cbn [fst snd] in *. pose proof (off_nonneg T sh).
        rewrite zn_upd by lia. destruct (Z.eqb_spec j sh) as [->|Nj].
        * change (zlen [i]) with 1 in Hk. rewrite zn_app by lia. destruct (Z.eqb_spec (off T sh + k) (off T sh + zlen (tr P sh))) as [Ek|Nk].
          -- replace (k <? _) with false by lia. replace (k - _) with 0 by lia. reflexivity.
          -- replace (k <? _) with true by lia. apply E2; lia.
        * change (zlen (@nil Z)) with 0 in Hk. rewrite app_nil_r. rewrite Z.add_0_r in Hk.
          assert (off T sh + zlen (tr P sh) <= off T (sh + 1)).
          { rewrite off_succ by lia. rewrite HT, !zlen_app. pose proof (zlen_nonneg (tr r sh)). pose proof (zlen_nonneg (if j =? sh then [i] else [])). lia. }
          replace (_ =? _) with false; [apply E2; lia|]. symmetry. apply Z.eqb_neq. intros Q.
          destruct (Z_lt_ge_dec sh j).
          -- pose proof (off_mono T (sh + 1) j ltac:(lia)). lia.
          -- pose proof (off_mono T (j + 1) sh ltac:(lia)). lia. }
  apply (proj1 (wp_ok _ _)) in K. destruct K as ([hs h'] & K & R). exists hs, h'. split; [exact K|]. exact R.
Qed.

Lemma back_ok c h' : zlen c = n -> (forall sh, 0 <= sh < n -> zn 0 c sh = zlen (T sh)) -> zlen h' = n ->
  (forall sh, 0 <= sh < n -> zn 0 h' sh = off T sh + zlen (T sh)) -> exists h, cm_back c h' = Ok h /\ starts_ok h T n.
Proof.
  intros A B C E. unfold cm_back. rewrite A. apply (proj1 (wp_ok _ _)).
  eapply wp_mono; [apply (for_inv (fun t h => zlen h = n /\ forall i, 0 <= i < n -> zn 0 h i = off T i + if i <? t then 0 else zlen (T i))); try lia|].
  - split; auto. intros i Hi. replace (i <? 0) with false by lia. auto.
  - intros t h Ht (Lh & Hh). rewrite (get_ok 0) by lia. cbn [bind]. rewrite (get_ok 0) by lia. cbn [bind]. rewrite set_ok by lia. cbn [wp].
    split; [now rewrite zlen_upd|]. intros i Hi. rewrite zn_upd by lia. destruct (Z.eqb_spec i t) as [->|].
    + rewrite Hh, B by lia. replace (t <? t) with false by lia. replace (t <? t + 1) with true by lia. lia.
    + rewrite Hh by lia. destruct (Z.ltb_spec i t), (Z.ltb_spec i (t + 1)); try lia.
  - cbn. intros h (Lh & Hh). split; auto. intros i Hi. rewrite Hh by auto. replace (i <? n) with true by lia. lia.
Qed.

Lemma copy_each l : forall (out : list Z) j, 0 <= j -> j + zlen l <= zlen out ->
  exists out', each l (fun v st => let '(out, j) := st in out <- set out j v ;; Ok (out, j + 1))%res (out, j) = Ok (out', j + zlen l) /\
    zlen out' = zlen out /\ firstn (Z.to_nat (j + zlen l)) out' = firstn (Z.to_nat j) out ++ l.
Proof.
  induction l as [|a l IH]; intros out j Hj Hl; cbn [each].
  - exists out. change (zlen []) with 0. rewrite Z.add_0_r, app_nil_r. auto.
  - rewrite zlen_cons in *. pose proof (zlen_nonneg l). rewrite set_ok by lia. cbn [bind].
    destruct (IH (upd out (Z.to_nat j) a) (j + 1)) as (out' & E & Lo & F); [lia|rewrite zlen_upd; lia|].
    exists out'. replace (j + (1 + zlen l)) with (j + 1 + zlen l) by lia. split; [exact E|]. split; [now rewrite Lo, zlen_upd|].
    rewrite F. replace (Z.to_nat (j + 1)) with (S (Z.to_nat j)) by lia. rewrite firstn_upd_S by (unfold zlen in *; lia). now rewrite <- app_assoc.
Qed.

Lemma copy_ok src s l out j : 0 <= s -> s + zlen l <= zlen src -> (forall k, 0 <= k < zlen l -> zn 0 src (s + k) = zn 0 l k) ->
  0 <= j -> j + zlen l <= zlen out -> exists out', cm_copy src s (s + zlen l) (out, j) = Ok (out', j + zlen l) /\
    zlen out' = zlen out /\ firstn (Z.to_nat (j + zlen l)) out' = firstn (Z.to_nat j) out ++ l.
Proof.
  intros Hs Hl Hz Hj Ho. unfold cm_copy.
  rewrite (for_ext _ (fun t st => v <- get src t ;; (fun v st => let '(out, j) := st in out <- set out j v ;; Ok (out, j + 1)) v st)%res).
  2:{ intros t [o q] Ht. reflexivity. }
  rewrite for_slice by auto. now apply copy_each.
Qed.

Lemma replace_part {A} (a b c x : list A) :
  firstn (Z.to_nat (zlen a)) (a ++ b ++ c) ++ x ++ skipn (Z.to_nat (zlen a + zlen b)) (a ++ b ++ c) = a ++ x ++ c.
Proof.
  unfold zlen. rewrite Nat2Z.id. replace (Z.to_nat _) with (List.length (a ++ b)) by (rewrite app_length; lia).
  rewrite firstn_app, firstn_all, Nat.sub_diag. cbn [firstn]. rewrite app_nil_r. do 2 f_equal.
  rewrite app_assoc, skipn_app, skipn_all, Nat.sub_diag. reflexivity.
Qed.

Definition both (i : Z) : list Z := T i ++ L i.

Lemma merge_ok h hs : starts_ok h T n -> zlen hs = off T n ->
  (forall sh k, 0 <= sh < n -> 0 <= k < zlen (T sh) -> zn 0 hs (off T sh + k) = zn 0 (T sh) k) ->
  exists st, cm_merge (SF starts subs) n h hs = Ok (flat_map both (zseq n), st) /\ starts_ok st both n.
Proof.
  intros Hh Lh Hz. unfold cm_merge. cbn [sf_starts sf_subs]. destruct Hst as [El Es]. rewrite El.
  assert (LM : forall i, 0 <= i -> off both i = off T i + off L i) by (intros; now apply off_app).
  assert (K : wp (for_ 0 n (fun ih st => let '(out, st0, j) := st in
      st0 <- set st0 ih j ;; '(s, e) <- start_end (SF h subs) ih ;; '(out, j) <- cm_copy hs s e (out, j) ;;
      '(s, e) <- start_end (SF starts subs) ih ;; '(out, j) <- cm_copy subs s e (out, j) ;; Ok (out, st0, j))%res
      (repeat 0 (Z.to_nat (zlen hs + zlen subs)), repeat 0 (Z.to_nat n), 0))
    (fun s => let '(out, st, j) := s in zlen out = off both n /\ zlen st = n /\ j = off both n /\
       firstn (Z.to_nat j) out = flat_map both (zseq n) /\ forall i, 0 <= i < n -> zn 0 st i = off both i)).
  { apply (for_inv (fun t s => let '(out, st, j) := s in zlen out = off both n /\ zlen st = n /\ j = off both t /\
       firstn (Z.to_nat j) out = flat_map both (zseq t) /\ forall i, 0 <= i < t -> zn 0 st i = off both i)); [lia| |].
    - rewrite !zlen_repeat. rewrite Lh, subs_len, LM by lia. pose proof (off_nonneg T n). pose proof (off_nonneg L n).
      repeat split; try lia.
    - intros t [[out st] j] Ht (A & B & -> & F & G). rewrite set_ok by lia. cbn [bind].
      rewrite (start_end_ok h subs T n) by (auto; now rewrite subs_len, T_len). cbn [bind]. rewrite (off_succ T) by lia.
      pose proof (off_nonneg both t). pose proof (off_nonneg T t). pose proof (off_nonneg L t).
      pose proof (off_block T t n ltac:(lia)). pose proof (off_block L t n ltac:(lia)). pose proof (off_block both t n ltac:(lia)) as HB.
      unfold both in HB at 2. rewrite zlen_app in HB. pose proof (zlen_nonneg (T t)). pose proof (zlen_nonneg (L t)).
      destruct (copy_ok hs (off T t) (T t) out (off both t)) as (o1 & -> & Lo1 & F1); try lia.
      { intros k Hk. apply Hz; lia. }
      cbn [bind]. rewrite (start_end_ok starts subs L n) by auto using subs_len. cbn [bind]. rewrite (off_succ L) by lia.
      destruct (copy_ok subs (off L t) (L t) o1 (off both t + zlen (T t))) as (o2 & -> & Lo2 & F2); try lia.
      { rewrite subs_len; lia. }
      { intros k Hk. apply zn_flat; lia. }
      cbn [bind wp]. split; [lia|]. split; [now rewrite zlen_upd|].
      assert (EO : off both (t + 1) = off both t + zlen (T t) + zlen (L t)) by (rewrite off_succ by lia; unfold both at 2; rewrite zlen_app; lia).
      split; [lia|]. split.
      + rewrite F2, F1, F. rewrite zseq_succ, flat_map_app by lia. cbn [flat_map]. unfold both at 3. now rewrite app_nil_r, <- app_assoc.
      + intros i Hi. rewrite zn_upd by lia. destruct (Z.eqb_spec i t) as [->|]; auto. apply G. lia. }
  apply (proj1 (wp_ok _ _)) in K. destruct K as ([[out st] j] & K & A & B & -> & F & G).
  exists st. split; [|split; auto]. etransitivity; [apply (f_equal (fun r => bind r _)); exact K|]. cbn [bind].
  rewrite <- F. rewrite firstn_all2 by (unfold zlen in A; lia). reflexivity.
Qed.

Lemma sort_insert_perm x l : Permutation (sort_insert x l) (x :: l).
Proof.
  induction l as [|y l IH]; cbn [sort_insert]; auto. destruct (x <=? y); auto. rewrite IH. constructor.
Qed.
Lemma sort_ints_perm l : Permutation (sort_ints l) l.
Proof. induction l as [|x l IH]; cbn; auto. rewrite sort_insert_perm. now constructor. Qed.
Lemma sort_insert_sorted x l : StronglySorted Z.le l -> StronglySorted Z.le (sort_insert x l).
Proof.
  induction 1 as [|y l H IH F]; cbn [sort_insert]; [repeat constructor|]. destruct (Z.leb_spec x y).
  - constructor; [now constructor|]. constructor; auto. eapply Forall_impl; [|exact F]. cbn; intros; lia.
  - constructor; auto. apply Forall_forall. intros z Hz. apply (Permutation_in _ (sort_insert_perm x l)) in Hz.
    destruct Hz as [<-|Hz]; [lia|]. rewrite Forall_forall in F. now apply F.
Qed.
Lemma sort_ints_sorted l : StronglySorted Z.le (sort_ints l).
Proof. induction l; cbn; [constructor|]. now apply sort_insert_sorted. Qed.

Lemma off_sort i : 0 <= i -> off (fun k => sort_ints (both k)) i = off both i.
Proof. intros Hi. apply off_ext; auto. intros k _. unfold zlen. f_equal. apply Permutation_length, sort_ints_perm. Qed.

Lemma sorts_ok st : starts_ok st both n -> for_ 0 (zlen st) (sort_part st) (flat_map both (zseq n)) =
  Ok (flat_map (fun i => sort_ints (both i)) (zseq n)).
Proof.
  intros Hs. pose proof Hs as [Ls Es]. rewrite Ls.
  assert (K : wp (for_ 0 n (sort_part st) (flat_map both (zseq n))) (fun out => out = flat_map (fun i => if i <? n then sort_ints (both i) else both i) (zseq n))).
  { apply (for_inv (fun t out => out = flat_map (fun i => if i <? t then sort_ints (both i) else both i) (zseq n))); [lia| |].
    - apply flat_map_ext_in'. intros i Hi. apply in_zseq in Hi. now replace (i <? 0) with false by lia.
    - intros t out Ht ->. set (M := fun i => if i <? t then sort_ints (both i) else both i).
      assert (OM : forall i, 0 <= i -> off M i = off both i).
      { intros i Hi. apply off_ext; auto. intros k _. unfold M. destruct (k <? t); auto. unfold zlen. f_equal. apply Permutation_length, sort_ints_perm. }
      unfold sort_part. rewrite (start_end_ok st _ both n) by (auto; apply OM; lia). cbn [bind].
      rewrite <- !OM by lia. rewrite slice_flat by lia. cbn [bind wp].
      rewrite off_succ by lia. destruct (zseq_split t n Ht) as (r & E & _ & Hr). rewrite E.
      rewrite !flat_map_app. cbn [flat_map]. unfold off. rewrite replace_part.
      assert (EM : M t = both t) by (unfold M; now replace (t <? t) with false by lia). rewrite EM.
      replace (t <? t + 1) with true by lia.
      f_equal; [|f_equal].
      + apply flat_map_ext_in'. intros i Hi. apply in_zseq in Hi. unfold M. replace (i <? t) with true by lia. now replace (i <? t + 1) with true by lia.
      + apply flat_map_ext_in'. intros i Hi.
        specialize (Hr i Hi).
        unfold M. replace (i <? t) with false by lia. now replace (i <? t + 1) with false by lia. }
  apply (proj1 (wp_ok _ _)) in K. destruct K as (out & -> & ->). f_equal. apply flat_map_ext_in'. intros i Hi. apply in_zseq in Hi.
  now replace (i <? n) with true by lia.
Qed.

Lemma cross_ok : exists st, cross_match (SF starts subs) = Ok (SF st (flat_map (fun i => sort_ints (both i)) (zseq n))) /\
  starts_ok st (fun i => sort_ints (both i)) n.
Proof.
  unfold cross_match. destruct counts_ok as (c & -> & Lc & Hc). cbn [bind].
  destruct (hstarts_ok c Lc Hc) as (h & -> & Hh). cbn [bind].
  destruct (hosts_ok h Hh) as (hs & h' & -> & Lhs & Lh' & Hh' & Hhs). cbn [bind].
  destruct (back_ok c h' Lc Hc Lh' Hh') as (h2 & -> & Hh2). cbn [bind]. rewrite Lc.
  destruct (merge_ok h2 hs Hh2 Lhs Hhs) as (st & -> & Hs). cbn [bind]. rewrite sorts_ok by auto. cbn [bind].
  exists st. split; auto. destruct Hs as [A B]. split; auto. intros i Hi. rewrite off_sort by lia. auto.
Qed.

Lemma in_both i j : 0 <= i < n -> In j (sort_ints (both i)) <-> (0 <= j < n /\ In i (L j)) \/ In j (L i).
Proof.
  intros Hi. split.
  - intros H. apply (Permutation_in _ (sort_ints_perm _)) in H. apply in_app_iff in H. destruct H as [H|H]; auto. left. now apply in_T.
  - intros H. apply (Permutation_in _ (Permutation_sym (sort_ints_perm _))). apply in_app_iff. destruct H as [H|H]; auto. left. now apply in_T.
Qed.

Lemma NoDup_tr : (forall i, 0 <= i < n -> NoDup (L i)) -> forall j, NoDup (T j).
Proof.
  intros H j. unfold T, tr.
  assert (N : NoDup PP).
  { apply NoDup_flat_map with (key := fst).
    - apply NoDup_zseq.
    - intros i Hi. apply in_zseq in Hi. apply NoDup_map_key with (key := snd); auto.
    - intros i b _ Hb. apply in_map_iff in Hb. now destruct Hb as (k & <- & _). }
  apply NoDup_map_key with (key := fun i => (i, j)); [now apply NoDup_filter|].
  intros [a b] Hab. apply filter_In in Hab. cbn in *. destruct Hab as [_ E]. apply Z.eqb_eq in E. now subst.
Qed.

(** When the lists only hold larger numbers the sorted lists are strictly ascending. *)
Lemma both_asc i : (forall i, 0 <= i < n -> NoDup (L i)) -> (forall i j, 0 <= i < n -> In j (L i) -> i < j) -> 0 <= i < n ->
  StronglySorted Z.lt (sort_ints (both i)).
Proof.
  intros HN HU Hi. assert (N : NoDup (sort_ints (both i))).
  { apply (Permutation_NoDup (Permutation_sym (sort_ints_perm _))). apply NoDup_app'; auto using NoDup_tr.
    intros x Hx Hy. apply in_T in Hx. destruct Hx as [A B]. specialize (HU _ _ A B) as P. specialize (HU _ _ Hi Hy). lia. }
  pose proof (sort_ints_sorted (both i)) as S. induction S as [|a l S IH F]; [constructor|]. inversion N; subst.
  constructor; auto. rewrite Forall_forall in *. intros x Hx. specialize (F x Hx). assert (a <> x) by congruence. lia.
Qed.
End Cross.
