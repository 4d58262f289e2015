(** Catalogue files: sorting, choosing rows, writing and reading columns. *)
From Coq Require Import ZArith Reals String List Bool Sorted Permutation Lia ZifyBool ZifyNat Lra.
From Verif Require Import Base.Res Base.ResFacts Base.Num Base.Bytes Model.SheetIO Model.Config Model.Cosmo Model.Catalog.
From Verif Require Import Spec.Files Spec.Work Spec.Catalogs Proof.BytesP Proof.WorkP Proof.HaloP Proof.CatalogP.
Import ListNotations.
Open Scope Z_scope.

(** ** Sorting *)
Lemma ins_perm {A} (less : A -> A -> bool) a l : Permutation (ins less a l) (a :: l).
Proof. induction l as [|b l IH]; cbn; auto. destruct (less b a); auto. rewrite IH. constructor. Qed.
Lemma ins_sorted {A} (less : A -> A -> bool) a l : strict_weak less -> in_order less l -> in_order less (ins less a l).
Proof.
  intros (I & T & C) H. induction H as [|b l S IH F]; cbn.
  - constructor; constructor.
  - destruct (less b a) eqn:E.
    + constructor; auto. apply Forall_forall. intros x Hx. apply (Permutation_in _ (ins_perm less a l)) in Hx. destruct Hx as [<-|Hx].
      * destruct (less a b) eqn:E2; auto. pose proof (T _ _ _ E E2) as K. rewrite I in K. discriminate.
      * rewrite Forall_forall in F. auto.
    + constructor; [constructor; auto|]. constructor; auto. rewrite Forall_forall in F |- *. intros x Hx. eapply C; [now apply F|exact E].
Qed.
Lemma isort_sorts : sorts isort.
Proof.
  intros A less l H. unfold isort. induction l as [|a l [P S]]; cbn; [split; [auto|constructor]|]. split.
  - rewrite ins_perm. now constructor.
  - now apply ins_sorted.
Qed.

Lemma SS_app_inv {A} (R : A -> A -> Prop) l1 l2 : StronglySorted R (l1 ++ l2) ->
  StronglySorted R l2 /\ forall x y, In x l1 -> In y l2 -> R x y.
Proof.
  induction l1 as [|a l1 IH]; cbn; intros H; [split; auto; intros x y []|]. inversion H as [|? ? S F]; subst. destruct (IH S) as [A1 A2]. split; auto.
  intros x y [<-|Hx] Hy; auto. rewrite Forall_forall in F. apply F. apply in_or_app. now right.
Qed.
Lemma SS_map {A B} (R : B -> B -> Prop) (g : A -> B) l : StronglySorted (fun a b => R (g a) (g b)) l <-> StronglySorted R (map g l).
Proof.
  induction l as [|a l IH]; cbn; split; intros H; inversion H as [|? ? S F]; subst; constructor; try (now apply IH).
  - rewrite Forall_map. exact F. - rewrite Forall_map in F. exact F.
Qed.
Lemma in_order_map {A B} (less : B -> B -> bool) (g : A -> B) l : in_order (fun a b => less (g a) (g b)) l <-> in_order less (map g l).
Proof. unfold in_order. apply (SS_map (fun a b => less b a = false)). Qed.

Lemma weak_map {A B} (less : B -> B -> bool) (g : A -> B) : strict_weak less -> strict_weak (fun a b => less (g a) (g b)).
Proof. intros (I & T & C). split; [|split]; intros *; eauto. Qed.

Lemma ints_zseq n : ints n = zseq (Z.of_nat n).
Proof. unfold ints, zseq. now rewrite Nat2Z.id. Qed.

Lemma combine_snd {A B} (xs : list A) (ys : list B) : length xs = length ys -> map snd (combine xs ys) = ys.
Proof. revert ys. induction xs; intros [|y ys] H; cbn in *; try lia; auto. f_equal. apply IHxs. lia. Qed.

Lemma combine_ints {A} (d : A) xs : forall k p, In p (combine xs (map Z.of_nat (seq k (length xs)))) -> fst p = nth (Z.to_nat (snd p - Z.of_nat k)) xs d /\ Z.of_nat k <= snd p.
Proof.
  induction xs as [|x xs IH]; intros k p; cbn; [intros []|]. intros [<-|H]; cbn [fst snd].
  - replace (Z.to_nat (Z.of_nat k - Z.of_nat k)) with O by lia. split; auto. lia.
  - destruct (IH (S k) p H) as [E L]. rewrite E. replace (Z.to_nat (snd p - Z.of_nat k)) with (S (Z.to_nat (snd p - Z.of_nat (S k)))) by lia. split; auto. lia.
Qed.

Lemma idx_sort_ok {A} (srt : sorter) (less : A -> A -> bool) (d : A) xs : sorts srt -> strict_weak less ->
  Permutation (idx_sort srt less xs) (zseq (zlen xs)) /\ in_order less (map (fun i => nth (Z.to_nat i) xs d) (idx_sort srt less xs)).
Proof.
  intros HS HW. unfold idx_sort. set (l := combine xs (ints (length xs))).
  destruct (HS _ (fun p q : A * Z => less (fst p) (fst q)) l (weak_map less fst HW)) as [P S].
  set (o := srt _ _ l) in *. split.
  - rewrite P. unfold l. rewrite combine_snd by (unfold ints; now rewrite map_length, seq_length). now rewrite ints_zseq.
  - apply in_order_map in S. replace (map _ (map snd o)) with (map fst o); auto. rewrite map_map. apply map_ext_in. intros p Hp.
    apply (Permutation_in _ P) in Hp. unfold l, ints in Hp. apply (combine_ints d) in Hp. destruct Hp as [E _]. rewrite E. f_equal. lia.
Qed.

Lemma perm_split_notin {A} (l1 l2 l : list A) x : Permutation (l1 ++ l2) l -> In x l -> ~ In x l2 -> In x l1.
Proof. intros P H N. apply (Permutation_in _ (Permutation_sym P)) in H. apply in_app_or in H. tauto. Qed.

Lemma top_rows_ok (srt : sorter) (less : Z -> Z -> bool) cols N n : sorts srt -> strict_weak less ->
  zlen cols = valNum -> Forall (fun c => zlen c = N) cols -> 0 <= n ->
  exists idxs, top_rows srt less cols n = Ok idxs /\ largest less 0 (zn [] cols vM200b) n idxs /\ zlen idxs = Z.min n N.
Proof.
  intros HS HW HC HL Hn. unfold top_rows. assert (E0 : valNum = 62) by reflexivity.
  assert (L : forall i, 0 <= i < 62 -> zlen (zn [] cols i) = N) by (intros i Hi; rewrite Forall_forall in HL; apply HL, zn_In; lia).
  rewrite (get_ok []) by lia. cbn [bind]. rewrite L by lia. rewrite (get_ok []) by (unfold vM200b; lia). cbn [bind].
  set (ms := zn [] cols vM200b). assert (Lm : zlen ms = N) by (apply L; unfold vM200b; lia).
  destruct (idx_sort_ok srt less 0 ms HS HW) as [P S]. set (idx := idx_sort srt less ms) in *.
  assert (Li : zlen idx = N). { unfold zlen at 1. rewrite (Permutation_length P). unfold zseq. rewrite map_length, seq_length. rewrite Lm. pose proof (zlen_nonneg ms). lia. }
  pose proof (zlen_nonneg ms). replace (if n >? N then N else n) with (Z.min n N) by (destruct (n >? N) eqn:En; lia).
  rewrite slice_ok by lia. eexists. split; [reflexivity|]. set (k := N - Z.min n N).
  rewrite firstn_all2 by (clear - Li; rewrite skipn_length; unfold zlen in *; lia). set (o := skipn (Z.to_nat k) idx).
  assert (Sp : idx = firstn (Z.to_nat k) idx ++ o) by (unfold o; now rewrite firstn_skipn).
  assert (Lo : zlen o = Z.min n N) by (unfold o; rewrite zlen_skipn; lia).
  assert (ND : NoDup idx) by (apply (Permutation_NoDup (Permutation_sym P)), NoDup_zseq).
  split; [|exact Lo]. rewrite Sp in S. rewrite map_app in S. apply SS_app_inv in S. destruct S as [S1 S2]. split; [now rewrite Lm|]. split.
  { rewrite Sp in ND. clear - ND. induction (firstn (Z.to_nat k) idx) as [|a l IH]; cbn in ND; auto. apply IH. now inversion ND. }
  split; [|split; [exact S1|]].
  - intros i Hi. apply in_zseq. apply (Permutation_in _ P). rewrite Sp. apply in_or_app. now right.
  - intros i j Hi Hj Nj. apply S2.
    + apply in_map_iff. exists j. split; auto. apply (perm_split_notin _ o (zseq (zlen ms)) j); auto; [now rewrite <- Sp|now apply in_zseq].
    + apply in_map_iff. exists i. split; auto.
Qed.

Lemma take_rows_ok idxs col : (forall i, In i idxs -> 0 <= i < zlen col) -> take_rows idxs col = Ok (map (fun i => zn 0 col i) idxs).
Proof.
  intros H. unfold take_rows.
  assert (W : wp (for_ 0 (zlen idxs) (fun i out => bind (get idxs i) (fun idx => bind (get col idx) (fun v => set out i v))) (repeat 0 (length idxs)))
    (fun o => zlen o = zlen idxs /\ forall j, 0 <= j < zlen idxs -> zn 0 o j = zn 0 col (zn 0 idxs j))).
  { apply (for_inv (fun t o => zlen o = zlen idxs /\ forall j, 0 <= j < t -> zn 0 o j = zn 0 col (zn 0 idxs j))).
    - apply zlen_nonneg. - split; [now rewrite zlen_repeat|]. intros; lia.
    - intros i o Hi [A B]. rewrite (get_ok 0) by auto. cbn [bind]. rewrite (get_ok 0) by (apply H, zn_In; auto). cbn [bind]. rewrite set_ok by lia. cbn [wp]. split; [now rewrite zlen_upd|].
      intros j Hj. rewrite zn_upd by lia. destruct (Z.eqb_spec j i) as [-> | ]; auto. apply B. lia. }
  apply (proj1 (wp_ok _ _)) in W. destruct W as (o & -> & A & B). f_equal. apply (list_ext 0); [now rewrite zlen_map|].
  intros i Hi. rewrite A in Hi. rewrite B by auto. now rewrite (zn_map _ 0 0) by lia.
Qed.

(** ** Files of columns *)
Definition is_bits (v : Z) : Prop := 0 <= v < 2 ^ 64.

Lemma map_pair_fst (col : list Z) : map fst (map (pair 8%nat) col) = repeat 8%nat (length col).
Proof. rewrite map_map. induction col; cbn; f_equal; auto. Qed.
Lemma list_sum_repeat k n : list_sum (repeat k n) = (k * n)%nat.
Proof. induction n; [cbn; lia|]. cbn [repeat]. change (list_sum (k :: repeat k n)) with (k + list_sum (repeat k n))%nat. rewrite IHn. lia. Qed.
Lemma doubles_length col : length (doubles col) = (8 * length col)%nat.
Proof. unfold doubles. now rewrite encode_length, map_pair_fst, list_sum_repeat. Qed.

Lemma words_doubles col : Forall is_bits col -> words Little 8 (length col) (doubles col) = col.
Proof.
  intros H. unfold words, doubles. rewrite <- map_pair_fst. rewrite <- (app_nil_r (encode _ _)). rewrite decode_encode.
  rewrite map_map. cbn [fst snd]. induction H as [|v l B F IH]; cbn [map]; auto. f_equal; auto. apply Z.mod_small. exact B.
Qed.

Lemma flat_length cols N : Forall (fun c => zlen c = N) cols -> length (flat_map doubles cols) = (length cols * (8 * Z.to_nat N))%nat.
Proof.
  induction 1 as [|c l H F IH]; cbn [flat_map]; auto. rewrite app_length, IH, doubles_length. cbn [length]. unfold zlen in H. lia.
Qed.

Section File.
Variables (cols : list (list Z)) (N : Z).
Hypothesis HC : zlen cols = valNum.
Hypothesis HL : Forall (fun c => zlen c = N) cols.
Hypothesis HB : Forall (Forall is_bits) cols.
Hypothesis HN : 0 <= N < 2 ^ 63.
Let file := put Little 8 N ++ flat_map doubles cols.

Lemma file_col c : 0 <= c < valNum -> read_col file N c = Ok (Good (zn [] cols c)).
Proof.
  intros Hc. unfold read_col. replace (c >? valNum) with false by lia.
  assert (P : 0 <= 8 + N * 8 * c) by nia. replace (8 + N * 8 * c <? 0) with false by lia.
  assert (Hc' : (Z.to_nat c < length cols)%nat) by (unfold zlen in HC; lia).
  destruct (nth_split cols [] Hc') as (l1 & l2 & E & E1).
  assert (Ec : nth (Z.to_nat c) cols [] = zn [] cols c) by reflexivity. rewrite Ec in E. set (col := zn [] cols c) in *.
  assert (Lc : zlen col = N) by (rewrite Forall_forall in HL; apply HL, zn_In; lia).
  assert (F1 : Forall (fun c => zlen c = N) l1) by (rewrite E, Forall_app in HL; tauto).
  unfold file. rewrite E at 1. rewrite flat_map_app. cbn [flat_map]. rewrite app_assoc.
  rewrite (read_full_app (put Little 8 N ++ flat_map doubles l1) (doubles col) (flat_map doubles l2)).
  - f_equal. f_equal. replace (Z.to_nat N) with (length col) by (unfold zlen in Lc; lia). apply words_doubles. rewrite Forall_forall in HB. apply HB, zn_In. lia.
  - rewrite app_length, put_length, (flat_length _ N F1), E1. nia.
  - rewrite doubles_length. unfold zlen in Lc. lia.
Qed.

Lemma file_header : match read_full file 0 8 with Some b => signed 64 (word Little b) = N | None => False end.
Proof.
  unfold file. rewrite <- (app_nil_l (put _ _ _ ++ _)). rewrite (read_full_app [] (put Little 8 N)) by (auto using put_length).
  rewrite word_put. change (256 ^ Z.of_nat 8) with (2 ^ 64). rewrite Z.mod_small by lia. unfold signed. change (2 ^ (64 - 1)) with (2 ^ 63).
  now replace (N <? 2 ^ 63) with true by lia.
Qed.

Lemma file_cols cs : Forall (fun c => 0 <= c < valNum) cs -> binary_col_getter file cs = Ok (Good (map (fun c => zn [] cols c) cs)).
Proof.
  intros H. unfold binary_col_getter. pose proof file_header as K. destruct (read_full file 0 8) as [b|]; [|contradiction]. rewrite K.
  replace (N <? 0) with false by lia. cbn [andb]. induction H as [|c cs Hc F IH]; cbn [read_cols map]; auto.
  rewrite file_col by auto. cbn [bind]. now rewrite IH.
Qed.

Lemma file_len : length file = (8 + 62 * (8 * Z.to_nat N))%nat.
Proof. unfold file. rewrite app_length, put_length, (flat_length _ N HL). unfold zlen, valNum in HC. replace (length cols) with 62%nat by lia. reflexivity. Qed.

Lemma file_col_last cs rest : Forall (fun c => 0 <= c < valNum) cs ->
  (1 <= N -> binary_col_getter file (cs ++ valNum :: rest) = Ok Err) /\
  (forall c, valNum < c -> binary_col_getter file (cs ++ c :: rest) = Panic).
Proof.
  intros H. unfold binary_col_getter. pose proof file_header as K. destruct (read_full file 0 8) as [b|]; [|contradiction]. rewrite K.
  replace (N <? 0) with false by lia. cbn [andb]. split.
  - intros P. induction H as [|c cs Hc F IH]; cbn [app read_cols].
    + unfold read_col at 1. replace (valNum >? valNum) with false by lia. replace (8 + N * 8 * valNum <? 0) with false by (unfold valNum; lia).
      rewrite read_full_short; [reflexivity| |lia]. rewrite file_len. unfold valNum. lia.
    + rewrite file_col by auto. cbn [bind]. rewrite IH. reflexivity.
  - intros c' Hc'. induction H as [|c cs Hc F IH]; cbn [app read_cols].
    + unfold read_col at 1. now replace (c' >? valNum) with true by lia.
    + rewrite file_col by auto. cbn [bind]. rewrite IH. reflexivity.
Qed.
End File.

Lemma zn_cols (cols : list (list Z)) N c : zlen cols = valNum -> Forall (fun c => zlen c = N) cols -> 0 <= c < valNum -> zlen (zn [] cols c) = N.
Proof. intros HC HL Hc. rewrite Forall_forall in HL. apply HL, zn_In. lia. Qed.

Theorem convert_thm (cols : list (list Z)) N : zlen cols = valNum -> Forall (fun c : list Z => zlen c = N) cols -> Forall (Forall is_bits) cols -> N < 2 ^ 63 ->
  exists file, rockstar_convert cols = Ok file /\
    forall cs, Forall (fun c => 0 <= c < valNum) cs -> binary_col_getter file cs = Ok (Good (map (fun c => zn [] cols c) cs)).
Proof.
  intros HC HL HB HN. assert (L0 : zlen (zn [] cols 0) = N) by (eapply zn_cols; eauto; unfold valNum; lia).
  unfold rockstar_convert. rewrite (get_ok []) by (unfold valNum in HC; lia). cbn [bind]. rewrite L0. eexists. split; [reflexivity|].
  intros cs Hcs. apply file_cols; auto. pose proof (zlen_nonneg (zn [] cols 0)). lia.
Qed.

Theorem top_n_thm (srt : sorter) (less : Z -> Z -> bool) cols N n : sorts srt -> strict_weak less ->
  zlen cols = valNum -> Forall (fun c : list Z => zlen c = N) cols -> Forall (Forall is_bits) cols -> N < 2 ^ 63 -> 0 <= n ->
  exists file idxs, rockstar_convert_top_n srt less cols n = Ok file /\ largest less 0 (zn [] cols vM200b) n idxs /\
    (forall cs, Forall (fun c => 0 <= c < valNum) cs ->
      binary_col_getter file cs = Ok (Good (map (fun c => map (fun i => zn 0 (zn [] cols c) i) idxs) cs))) /\
    (forall cs rest, Forall (fun c => 0 <= c < valNum) cs ->
      (1 <= Z.min n N -> binary_col_getter file (cs ++ valNum :: rest) = Ok Err) /\
      (forall c, valNum < c -> binary_col_getter file (cs ++ c :: rest) = Panic)).
Proof.
  intros HS HW HC HL HB HN Hn. destruct (top_rows_ok srt less cols N n HS HW HC HL Hn) as (idxs & E & Lg & Li).
  assert (L : forall c, 0 <= c < valNum -> zlen (zn [] cols c) = N) by (intros; eapply zn_cols; eauto).
  unfold rockstar_convert_top_n. rewrite (get_ok []) by (unfold valNum in HC; lia). cbn [bind]. rewrite E. cbn [bind].
  rewrite (tabulate_ok _ (fun j => map (fun i => zn 0 (zn [] cols j) i) idxs)).
  2: apply zlen_nonneg.
  2: { intros j Hj. rewrite (get_ok []) by auto. cbn [bind]. apply take_rows_ok. intros i Hi. destruct Lg as (_ & _ & R & _).
       specialize (R i Hi). rewrite L in * by (unfold vM200b, valNum in *; lia). exact R. }
  cbn [bind]. rewrite L by (unfold valNum; lia). assert (0 <= N) by (rewrite <- (L 0) by (unfold valNum; lia); apply zlen_nonneg).
  replace (if n >? N then N else n) with (Z.min n N) by (destruct (n >? N) eqn:En; lia). set (out := ztab (zlen cols) _).
  assert (O1 : zlen out = valNum) by (unfold out; rewrite zlen_ztab; auto; apply zlen_nonneg).
  assert (Oc : forall c, 0 <= c < valNum -> zn [] out c = map (fun i => zn 0 (zn [] cols c) i) idxs) by (intros c Hc; unfold out; now rewrite zn_ztab by lia).
  assert (O2 : Forall (fun c => zlen c = Z.min n N) out).
  { apply Forall_forall. intros c Hc. apply (In_zn []) in Hc. destruct Hc as (i & Hi & <-). rewrite Oc by lia. now rewrite zlen_map. }
  assert (O3 : Forall (Forall is_bits) out).
  { apply Forall_forall. intros c Hc. apply (In_zn []) in Hc. destruct Hc as (i & Hi & <-). rewrite Oc by lia. apply Forall_forall. intros v Hv. apply in_map_iff in Hv.
    destruct Hv as (k & <- & Hk). rewrite Forall_forall in HB. specialize (HB (zn [] cols i) ltac:(apply zn_In; lia)). rewrite Forall_forall in HB. apply HB, zn_In.
    rewrite L by lia. destruct Lg as (_ & _ & R & _). specialize (R k Hk). rewrite L in R by (unfold vM200b, valNum; lia). exact R. }
  eexists. exists idxs. split; [reflexivity|]. split; [exact Lg|]. split.
  - intros cs Hcs. rewrite (file_cols out (Z.min n N)) by (auto; lia). f_equal. f_equal. apply map_ext_in. intros c Hc. rewrite Forall_forall in Hcs. now apply Oc, Hcs.
  - intros cs rest Hcs. apply (file_col_last out (Z.min n N)); auto. lia.
Qed.

Theorem top_n_neg (srt : sorter) (less : Z -> Z -> bool) cols N n : sorts srt -> strict_weak less ->
  zlen cols = valNum -> Forall (fun c : list Z => zlen c = N) cols -> n < 0 -> rockstar_convert_top_n srt less cols n = Panic.
Proof.
  intros HS HW HC HL Hn. assert (L : forall c, 0 <= c < valNum -> zlen (zn [] cols c) = N) by (intros; eapply zn_cols; eauto).
  unfold rockstar_convert_top_n. rewrite (get_ok []) by (unfold valNum in HC; lia). cbn [bind]. unfold top_rows. rewrite (get_ok []) by (unfold valNum in HC; lia). cbn [bind].
  rewrite (get_ok []) by (unfold valNum, vM200b in *; lia). cbn [bind]. rewrite L by (unfold valNum; lia).
  assert (0 <= N) by (rewrite <- (L 0) by (unfold valNum; lia); apply zlen_nonneg).
  destruct (idx_sort_ok srt less 0 (zn [] cols vM200b) HS HW) as [P _].
  assert (Li : zlen (idx_sort srt less (zn [] cols vM200b)) = N). { unfold zlen at 1. rewrite (Permutation_length P). unfold zseq. rewrite map_length, seq_length. rewrite L by (unfold valNum, vM200b; lia). lia. }
  rewrite Li. replace (n >? N) with false by lia. unfold slice. replace (N <? N - n) with true by lia. now rewrite orb_true_r.
Qed.

Lemma ltb_weak : strict_weak Z.ltb.
Proof. split; [|split]; intros *; lia. Qed.

Lemma top_n_example : sorts isort /\ strict_weak Z.ltb /\
  (let cols := map (fun k => [k; k + 7; k + 3]) (zseq 62) in
   zlen cols = valNum /\ Forall (fun c : list Z => zlen c = 3) cols /\ Forall (Forall (fun v => 0 <= v < 2 ^ 64)) cols /\
   largest Z.ltb 0 (zn [] cols vM200b) 2 [2; 1]).
Proof.
  split; [apply isort_sorts|]. split; [apply ltb_weak|]. cbn zeta. split; [reflexivity|]. split; [|split].
  - apply Forall_map, Forall_forall. intros k _. reflexivity.
  - apply Forall_map, Forall_forall. intros k Hk. apply in_zseq in Hk. repeat constructor; lia.
  - change (zn [] (map (fun k => [k; k + 7; k + 3]) (zseq 62)) vM200b) with [36; 43; 39]. split; [reflexivity|]. split; [repeat constructor; cbn; lia|]. split; [|split].
    + intros i [<- | [<- | []]]; cbn; lia.
    + repeat constructor.
    + intros i j Hi Hj Nj. change (zlen [36; 43; 39]) with 3 in Hj. assert (j = 0) by (cbn in Nj; lia). subst j. destruct Hi as [<- | [<- | []]]; reflexivity.
Qed.
