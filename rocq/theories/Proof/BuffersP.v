From Coq Require Import ZArith List Lia Bool.
From Coq Require Import ZifyBool ZifyNat.
From Verif Require Import Base.Res Base.ResFacts Base.Num Model.Geom Model.GridDeriv Model.Density Model.Box
  Model.RenderMain Model.Buffers Spec.BufferKinds Proof.ReadHaloM.
Import ListNotations.
Open Scope Z_scope.
Open Scope res_scope.

Section P.
Context {D F : Type} {ND : Num D} {NF : Num F} (down : D -> F) (up : F -> D).

Definition wfs {A} (s : gslice A) : Prop := 0 <= vis s <= zlen (back s).

(** A buffer of quantity [q] that points to [g], if it points anywhere. *)
Inductive kind (q : Z) (g : option (grid_location D)) : gbuf D -> Prop :=
| KS vals loc : wfs vals -> (q = 0 \/ q = 1) -> (q = 1 -> loc = g) -> kind q g (GKind (SBuf q vals) loc)
| KV vecs num loc : wfs vecs -> wfs num -> vis vecs = vis num -> (q = 2 \/ q = 3 \/ q = 4) ->
    (q <> 2 -> loc = g) -> kind q g (GKind (VBuf q vecs num) loc).

Lemma gmake_wf {A} (z : A) n s : gmake z n = Ok s -> wfs s /\ vis s = n.
Proof.
  unfold gmake. destruct (Z.ltb_spec n 0); [discriminate|]. intros [= <-]. unfold wfs; cbn [vis back].
  rewrite zlen_repeat. lia.
Qed.

Lemma reslice_wf {A} (s s' : gslice A) lo hi : wfs s -> reslice s lo hi = Ok s' ->
  wfs s' /\ vis s' = hi - lo.
Proof.
  unfold reslice, wfs. intros W. destruct ((lo <? 0) || (hi <? lo) || (zlen (back s) <? hi)) eqn:E; [discriminate|].
  intros [= <-]. cbn [vis back]. split; auto.
  assert (zlen (skipn (Z.to_nat lo) (back s)) = zlen (back s) - lo); [|lia].
  unfold zlen in *. rewrite skipn_length. lia.
Qed.

Lemma gset_ok {A} (s : gslice A) i v : wfs s -> 0 <= i < vis s ->
  gset s i v = Ok (GS (upd (back s) (Z.to_nat i) v) (vis s)).
Proof.
  intros W H. unfold gset. destruct ((i <? 0) || (vis s <=? i)) eqn:E; [lia|].
  unfold wfs in W. rewrite set_ok by lia. reflexivity.
Qed.

Lemma upd_wf {A} (s : gslice A) n v : wfs s -> wfs (GS (upd (back s) n v) (vis s)).
Proof. unfold wfs; cbn [vis back]. rewrite zlen_upd. auto. Qed.

Lemma visible_nth {A} (d : A) s i : wfs s -> 0 <= i < vis s -> zn d (visible s) i = zn d (back s) i.
Proof.
  intros W H. unfold visible, zn. rewrite <- (firstn_skipn (Z.to_nat (vis s)) (back s)) at 2.
  unfold wfs, zlen in W. rewrite app_nth1; [reflexivity|]. rewrite firstn_length. lia.
Qed.

Lemma zlen_visible {A} (s : gslice A) : wfs s -> zlen (visible s) = vis s.
Proof. unfold wfs, visible, zlen. intros H. rewrite firstn_length. lia. Qed.

(** The vectors copied in: the first entries change, the rest do not. *)
Lemma copy_vectors_ok dst vecs : wfs dst -> zlen vecs <= vis dst ->
  exists d, copy_vectors up dst vecs = Ok d /\ wfs d /\ vis d = vis dst /\
    visible d = map (vmap up) vecs ++ skipn (length vecs) (visible dst).
Proof.
  intros W H. unfold copy_vectors.
  assert (X : wp (for_ 0 (zlen vecs) (fun i s => v <- get vecs i ;; gset s i (vmap up v)) dst)
    (fun s => wfs s /\ vis s = vis dst /\ forall k, 0 <= k < vis dst ->
      zn zero3 (back s) k = if k <? zlen vecs then zn zero3 (map (vmap up) vecs) k else zn zero3 (back dst) k)).
  { apply (for_inv (fun i s => wfs s /\ vis s = vis dst /\ forall k, 0 <= k < vis dst ->
      zn zero3 (back s) k = if k <? i then zn zero3 (map (vmap up) vecs) k else zn zero3 (back dst) k)).
    - apply zlen_nonneg.
    - split; [auto|]. split; [auto|]. intros k Hk. destruct (Z.ltb_spec k 0); [lia|reflexivity].
    - intros i s Hi (Ws & Vs & C).
      destruct (nth_error vecs (Z.to_nat i)) as [v|] eqn:E.
      2:{ apply nth_error_None in E. unfold zlen in Hi. lia. }
      rewrite (get_ok v) by lia. cbn [bind]. rewrite gset_ok by (auto; lia). cbn [wp].
      split; [now apply upd_wf|]. split; [auto|]. intros k Hk. cbn [back].
      rewrite zn_upd by (unfold wfs in Ws; lia).
      destruct (Z.eqb_spec k i) as [->|N].
      + destruct (Z.ltb_spec i (i + 1)); [|lia]. rewrite (zn_map _ v) by lia. reflexivity.
      + rewrite C by auto. destruct (Z.ltb_spec k i), (Z.ltb_spec k (i + 1)); auto; lia. }
  apply wp_ok in X. destruct X as (d & E & Wd & Vd & C). exists d. rewrite E.
  split; auto. split; auto. split; auto.
  pose proof (zlen_nonneg vecs) as LV.
  assert (LS : zlen (skipn (length vecs) (visible dst)) = vis dst - zlen vecs).
  { pose proof (zlen_visible dst W). unfold zlen in *. rewrite skipn_length. lia. }
  apply (list_ext zero3).
  - rewrite zlen_visible, zlen_app, zlen_map by auto. lia.
  - rewrite zlen_visible by auto. intros k Hk. rewrite visible_nth by (auto; lia). rewrite C by lia.
    unfold zn at 3. destruct (Z.ltb_spec k (zlen vecs)).
    + rewrite app_nth1; [reflexivity|]. rewrite map_length. unfold zlen in *. lia.
    + rewrite app_nth2; rewrite map_length; [|unfold zlen in *; lia].
      rewrite <- visible_nth by (auto; lia). unfold zn.
      rewrite <- (firstn_skipn (length vecs) (visible dst)) at 1.
      rewrite app_nth2; [f_equal|]; rewrite firstn_length; pose proof (zlen_visible dst W); unfold zlen in *; lia.
Qed.

Lemma copy_vectors_panic dst vecs : wfs dst -> vis dst < zlen vecs -> copy_vectors up dst vecs = Panic.
Proof.
  intros W H. unfold copy_vectors. unfold wfs in W.
  rewrite (for_split 0 (vis dst) (zlen vecs)) by lia.
  assert (X : wp (for_ 0 (vis dst) (fun i s => v <- get vecs i ;; gset s i (vmap up v)) dst)
    (fun s => wfs s /\ vis s = vis dst)).
  { apply (for_inv (fun i s => wfs s /\ vis s = vis dst)); [lia|auto|].
    intros i s Hi (Ws & Vs).
    destruct (nth_error vecs (Z.to_nat i)) as [v|] eqn:E.
    2:{ apply nth_error_None in E. unfold zlen in *. lia. }
    rewrite (get_ok v) by lia. cbn [bind]. rewrite gset_ok by (auto; lia). cbn [wp].
    split; [now apply upd_wf|auto]. }
  apply wp_ok in X. destruct X as (s & -> & Ws & Vs). cbn [bind].
  rewrite for_step by lia.
  destruct (nth_error vecs (Z.to_nat (vis dst))) as [v|] eqn:E.
  2:{ apply nth_error_None in E. unfold zlen in *. lia. }
  rewrite (get_ok v) by lia. cbn [bind]. unfold gset.
  destruct ((vis dst <? 0) || (vis s <=? vis dst)) eqn:B; [reflexivity|lia].
Qed.

Lemma gset_wf {A} (s s' : gslice A) i v : wfs s -> gset s i v = Ok s' -> wfs s' /\ vis s' = vis s.
Proof.
  intros W. unfold gset. destruct ((i <? 0) || (vis s <=? i)) eqn:E; [discriminate|].
  unfold wfs in W. rewrite set_ok by lia. cbn [bind]. intros [= <-]. split; [|auto]. now apply upd_wf.
Qed.

Lemma clear_one {A} (z : A) (s s' : gslice A) : wfs s ->
  for_ 0 (vis s) (fun i v => gset v i z) s = Ok s' -> wfs s' /\ vis s' = vis s.
Proof.
  intros W E.
  assert (X : wp (for_ 0 (vis s) (fun i v => gset v i z) s) (fun v => wfs v /\ vis v = vis s)).
  { apply (for_inv (fun i v => wfs v /\ vis v = vis s)); [unfold wfs in W; lia|auto|].
    intros i v Hi [Wv Vv]. rewrite gset_ok by (auto; lia). cbn [wp]. split; [now apply upd_wf|auto]. }
  rewrite E in X. exact X.
Qed.

Lemma clear_two (v v' : gslice (vec3 D)) (n n' : gslice Z) : wfs v -> wfs n -> vis v = vis n ->
  for_ 0 (vis v) (fun i s => let '(v, n) := s in v <- gset v i zero3 ;; n <- gset n i 0 ;; Ok (v, n)) (v, n)
    = Ok (v', n') -> wfs v' /\ wfs n' /\ vis v' = vis v /\ vis n' = vis n.
Proof.
  intros Wv Wn Evn E.
  assert (X : wp (for_ 0 (vis v) (fun i s => let '(v, n) := s in v <- gset v i zero3 ;; n <- gset n i 0 ;; Ok (v, n)) (v, n))
    (fun s => wfs (fst s) /\ wfs (snd s) /\ vis (fst s) = vis v /\ vis (snd s) = vis n)).
  { apply (for_inv (fun i (s : gslice (vec3 D) * gslice Z) =>
      wfs (fst s) /\ wfs (snd s) /\ vis (fst s) = vis v /\ vis (snd s) = vis n)); [unfold wfs in Wv; lia|auto|].
    intros i [a b] Hi (A1 & B1 & A2 & B2). cbn [fst snd] in *.
    rewrite gset_ok by (auto; lia). cbn [bind]. rewrite gset_ok by (auto; lia). cbn [bind wp fst snd].
    repeat split; auto; try (apply upd_wf; auto). }
  rewrite E in X. exact X.
Qed.

Lemma op_kind q g b o b' : kind q g b -> apply_op up b o = Ok b' ->
  kind q (last_location g [o]) b'.
Proof.
  intros K E. destruct o as [lo hi| |g'|vecs]; cbn [apply_op last_location] in *.
  - destruct K as [vals loc W Q L|vecs num loc Wv Wn V Q L]; cbn [g_slice buf_slice] in E.
    + apply bind_ok in E. destruct E as (b1 & E1 & [= <-]). apply bind_ok in E1.
      destruct E1 as (v & E1 & [= <-]). apply (reslice_wf vals) in E1; auto. constructor; tauto.
    + apply bind_ok in E. destruct E as (b1 & E1 & [= <-]). apply bind_ok in E1.
      destruct E1 as (v & E1 & E2). apply bind_ok in E2. destruct E2 as (n & E2 & [= <-]).
      apply (reslice_wf vecs) in E1; auto. apply (reslice_wf num) in E2; auto.
      constructor; try tauto. lia.
  - destruct K as [vals loc W Q L|vecs num loc Wv Wn V Q L]; cbn [g_clear buf_clear] in E.
    + apply bind_ok in E. destruct E as (b1 & E1 & [= <-]). apply bind_ok in E1.
      destruct E1 as (v & E1 & [= <-]). apply clear_one in E1; auto. constructor; tauto.
    + apply bind_ok in E. destruct E as (b1 & E1 & [= <-]). apply bind_ok in E1.
      destruct E1 as ([v n] & E1 & [= <-]). apply clear_two in E1; auto.
      constructor; try tauto. lia.
  - injection E as <-. destruct K as [vals loc W Q L|vecs num loc Wv Wn V Q L]; cbn [g_set_location].
    + constructor; auto. unfold DensityGradient. intros ->. reflexivity.
    + constructor; auto. unfold Velocity. intros N. destruct (Z.eqb_spec q 2); [contradiction|reflexivity].
  - destruct K as [vals loc W Q L|dst num loc Wv Wn V Q L]; cbn [g_set_vectors bind] in E.
    + injection E as <-. now constructor.
    + apply bind_ok in E. destruct E as ([b1 t] & E1 & [= <-]). apply bind_ok in E1.
      destruct E1 as (d & E1 & [= <- <-]).
      destruct (Z.le_gt_cases (zlen vecs) (vis dst)).
      * destruct (copy_vectors_ok dst vecs Wv H) as (d' & E2 & Wd & Vd & _).
        rewrite E2 in E1. injection E1 as <-. constructor; auto. lia.
      * rewrite copy_vectors_panic in E1 by auto. discriminate.
Qed.

Lemma last_cons g o l : last_location (D := D) (F := F) g (o :: l) = last_location (last_location g [o]) l.
Proof. destruct o; reflexivity. Qed.

Lemma ops_kind q l : forall g b b', kind q g b -> apply_ops up b l = Ok b' -> kind q (last_location g l) b'.
Proof.
  induction l as [|o l IH]; intros g b b' K E; cbn [apply_ops] in E.
  - injection E as <-. exact K.
  - apply bind_ok in E. destruct E as (b1 & E1 & E2). rewrite last_cons.
    eapply IH; [|exact E2]. eapply op_kind; eauto.
Qed.

Lemma new_kind q n g b : g_new q n g = Ok b -> kind q g b /\ g_length b = n.
Proof.
  unfold g_new, new_buffer, Density, DensityGradient, Velocity, VelocityDivergence, VelocityCurl. intros E.
  apply bind_ok in E. destruct E as (b1 & E1 & [= <-]).
  destruct ((q =? 0) || (q =? 1)) eqn:Q1.
  - apply bind_ok in E1. destruct E1 as (v & E1 & [= <-]). apply gmake_wf in E1.
    split; [|apply E1]. constructor; [tauto|lia|]. intros ->. reflexivity.
  - destruct ((q =? 2) || (q =? 3) || (q =? 4)) eqn:Q2; [|discriminate].
    apply bind_ok in E1. destruct E1 as (v & E1 & E2). apply bind_ok in E2. destruct E2 as (m & E2 & [= <-]).
    apply gmake_wf in E1, E2. split; [|apply E1]. constructor; try tauto; try lia.
    intros N. destruct (Z.eqb_spec q 1), (Z.eqb_spec q 3), (Z.eqb_spec q 4); cbn [orb]; auto; lia.
Qed.

Lemma kind_answers q g b : kind q g b -> answers down q b.
Proof.
  intros K. unfold answers, from_velocity, three_images.
  assert (S : forall r : res (vec3 (list F)), (xs <- r ;; Ok (Some xs)) <> Ok None).
  { intros [x| | |]; cbn [bind]; discriminate. }
  assert (S1 : forall r : res (list F), (xs <- r ;; Ok (Some xs)) <> Ok None).
  { intros [x| | |]; cbn [bind]; discriminate. }
  destruct K as [vals loc W Q L|vecs num loc Wv Wn V Q L];
    cbn [g_quantity g_count g_vector g_scalar g_length buf_length g_final_scalar g_final_vector];
    unfold DensityGradient, VelocityDivergence, VelocityCurl.
  - split; [reflexivity|].
    split; [split; [intros _; lia|reflexivity]|].
    split; [split; [intros _; lia|reflexivity]|].
    split; [split; [discriminate|lia]|].
    split; [discriminate|]. split; [discriminate|].
    split; [intros x [= <-]; now apply zlen_visible|].
    destruct Q as [-> | ->]; cbn [Z.eqb Pos.eqb orb];
      split; split; intros H; try discriminate; try reflexivity; exfalso; first [now apply (S _ H)|now apply (S1 _ H)].
  - split; [reflexivity|].
    split; [split; [discriminate|lia]|].
    split; [split; [discriminate|lia]|].
    split; [split; [intros _; lia|reflexivity]|].
    split; [intros x [= <-]; rewrite V; now apply zlen_visible|].
    split; [intros x [= <-]; now apply zlen_visible|].
    split; [discriminate|].
    destruct Q as [-> | [-> | ->]]; cbn [Z.eqb Pos.eqb orb];
      split; split; intros H; try discriminate; try reflexivity; exfalso; first [now apply (S _ H)|now apply (S1 _ H)].
Qed.

Lemma buffer_answers q n g b l b' : g_new q n g = Ok b -> apply_ops up b l = Ok b' -> answers down q b'.
Proof.
  intros E1 E2. destruct (new_kind q n g b E1) as [K _].
  eapply kind_answers, ops_kind; eauto.
Qed.

Lemma new_exists q n g : 0 <= q <= 4 -> 0 <= n -> exists b, g_new q n g = Ok b /\ g_length b = n.
Proof.
  intros Q H. unfold g_new, new_buffer, Density, DensityGradient, Velocity, VelocityDivergence, VelocityCurl, gmake.
  destruct (Z.ltb_spec n 0); [lia|].
  destruct ((q =? 0) || (q =? 1)) eqn:Q1; cbn [bind]; [eexists; split; reflexivity|].
  destruct ((q =? 2) || (q =? 3) || (q =? 4)) eqn:Q2; cbn [bind]; [eexists; split; reflexivity|lia].
Qed.

Lemma raw_panics vals vecs : g_quantity (GScalar vals : gbuf D) = Panic /\ g_quantity (GVector vecs : gbuf D) = Panic /\
  g_write down (GScalar vals) = Panic /\ g_write down (GVector vecs) = Panic.
Proof. repeat split. Qed.

Lemma kind_write q g b c : kind q (Some g) b -> holds b c ->
  g_write down b = (im <- final_image down q g c ;; Ok (q, im)).
Proof.
  intros K H. unfold g_write, final_image, Density, DensityGradient, Velocity, VelocityDivergence, VelocityCurl.
  destruct K as [vals loc W Q L|vecs num loc Wv Wn V Q L]; destruct c as [cv|cv cn];
    cbn [holds g_scalar g_vector g_count] in H; try discriminate; try (destruct H; discriminate);
    cbn [g_quantity bind g_final_scalar g_final_vector];
    unfold Density, DensityGradient, Velocity, VelocityDivergence, VelocityCurl.
  - injection H as <-. destruct Q as [-> | ->]; cbn [Z.eqb Pos.eqb bind]; [reflexivity|].
    rewrite (L eq_refl). cbn [located].
    destruct (finalized_gradient down g (visible vals)); reflexivity.
  - destruct H as [H1 H2]. injection H1 as <-. injection H2 as <-.
    destruct Q as [-> | [-> | ->]]; cbn [Z.eqb Pos.eqb bind].
    + destruct (finalized_velocity down (visible vecs) (visible num)); reflexivity.
    + rewrite L by lia. cbn [located].
      destruct (finalized_divergence down g (visible vecs) (visible num)); reflexivity.
    + rewrite L by lia. cbn [located].
      destruct (finalized_curl down g (visible vecs) (visible num)); reflexivity.
Qed.

Lemma buffer_write q n g0 b l b' g c : g_new q n g0 = Ok b -> apply_ops up b l = Ok b' ->
  last_location g0 l = Some g -> holds b' c ->
  g_write down b' = (im <- final_image down q g c ;; Ok (q, im)).
Proof.
  intros E1 E2 E3 H. destruct (new_kind q n g0 b E1) as [K _].
  apply kind_write; auto. rewrite <- E3. eapply ops_kind; eauto.
Qed.

Lemma buffer_nowhere q n g0 b l b' : g_new q n g0 = Ok b -> apply_ops up b l = Ok b' ->
  last_location g0 l = None -> (q = 1 \/ q = 3 \/ q = 4) -> g_write down b' = Panic.
Proof.
  intros E1 E2 E3 Q. destruct (new_kind q n g0 b E1) as [K0 _].
  pose proof (ops_kind q l g0 b b' K0 E2) as K. rewrite E3 in K.
  unfold g_write. destruct K as [vals loc W Q' L|vecs num loc Wv Wn V Q' L];
    cbn [g_quantity bind g_final_scalar g_final_vector];
    unfold Density, DensityGradient, Velocity, VelocityDivergence, VelocityCurl.
  - assert (q = 1) as -> by lia. rewrite (L eq_refl). reflexivity.
  - assert (q = 3 \/ q = 4) as [-> | ->] by lia; rewrite L by lia; reflexivity.
Qed.

(** SetVectors. *)
Lemma set_vectors_thm q n g b l b' vecs : g_new q n g = Ok b -> apply_ops up b l = Ok b' ->
  (from_velocity q = false -> g_set_vectors up b' vecs = Ok (b', false)) /\
  (from_velocity q = true -> g_length b' < zlen vecs -> g_set_vectors up b' vecs = Panic) /\
  (from_velocity q = true -> zlen vecs <= g_length b' ->
     exists b2 old, g_set_vectors up b' vecs = Ok (b2, true) /\ g_vector b' = Some old /\
       g_vector b2 = Some (map (vmap up) vecs ++ skipn (length vecs) old) /\
       g_count b2 = g_count b' /\ g_length b2 = g_length b').
Proof.
  intros E1 E2. destruct (new_kind q n g b E1) as [K0 _].
  pose proof (ops_kind q l g b b' K0 E2) as K. unfold from_velocity.
  destruct K as [vals loc W Q L|dst num loc Wv Wn V Q L]; cbn [g_set_vectors g_length buf_length g_vector g_count].
  - split; [reflexivity|]. split; intros; lia.
  - split; [lia|]. split.
    + intros _ H. rewrite copy_vectors_panic by auto. reflexivity.
    + intros _ H. destruct (copy_vectors_ok dst vecs Wv H) as (d & E & Wd & Vd & C).
      rewrite E. cbn [bind]. eexists _, _. split; [reflexivity|]. split; [reflexivity|].
      cbn [g_vector g_count g_length buf_length]. rewrite C, Vd. auto.
Qed.

(** Slices and clearing, for every buffer. *)
Definition sound (b : gbuf D) : Prop :=
  match b with
  | GScalar v | GKind (SBuf _ v) _ => wfs v
  | GVector v => wfs v
  | GKind (VBuf _ v n) _ => wfs v /\ wfs n /\ vis v = vis n
  end.

Lemma kind_sound q g b : kind q g b -> sound b.
Proof. intros [vals loc W _ _|v n loc Wv Wn V _ _]; cbn [sound]; auto. Qed.

Lemma whole {A} (l : list A) : wfs (GS l (zlen l)).
Proof. unfold wfs; cbn [vis back]. pose proof (zlen_nonneg l). lia. Qed.

Lemma fresh_sound b : fresh b -> sound b.
Proof.
  intros [(q & n & g & E)|[(l & ->)|[(l & ->)|(l & ->)]]]; cbn [sound wrapper_density_buffer]; try apply whole.
  apply new_kind in E. eapply kind_sound, E.
Qed.

Lemma op_sound b o b' : sound b -> apply_op up b o = Ok b' -> sound b'.
Proof.
  intros S E. destruct o as [lo hi| |g'|vecs]; cbn [apply_op] in E.
  - destruct b as [v|v|[q v|q v n] loc]; cbn [sound g_slice buf_slice] in *.
    + apply bind_ok in E. destruct E as (w & E & [= <-]). eapply (reslice_wf v); eauto.
    + apply bind_ok in E. destruct E as (w & E & [= <-]). eapply (reslice_wf v); eauto.
    + apply bind_ok in E. destruct E as (b1 & E & [= <-]). apply bind_ok in E. destruct E as (w & E & [= <-]).
      cbn [sound]. eapply (reslice_wf v); eauto.
    + apply bind_ok in E. destruct E as (b1 & E & [= <-]). apply bind_ok in E. destruct E as (w & E & E2).
      apply bind_ok in E2. destruct E2 as (m & E2 & [= <-]). cbn [sound].
      destruct S as (S1 & S2 & S3).
      apply (reslice_wf v) in E; auto. apply (reslice_wf n) in E2; auto. split; [tauto|]. split; [tauto|lia].
  - destruct b as [v|v|[q v|q v n] loc]; cbn [sound g_clear buf_clear] in *.
    + apply bind_ok in E. destruct E as (w & E & [= <-]). now apply clear_one in E.
    + apply bind_ok in E. destruct E as (w & E & [= <-]). now apply clear_one in E.
    + apply bind_ok in E. destruct E as (b1 & E & [= <-]). apply bind_ok in E. destruct E as (w & E & [= <-]).
      now apply clear_one in E.
    + apply bind_ok in E. destruct E as (b1 & E & [= <-]). apply bind_ok in E. destruct E as ([w m] & E & [= <-]).
      destruct S as (S1 & S2 & S3). apply clear_two in E; auto. cbn [sound]. split; [tauto|]. split; [tauto|lia].
  - injection E as <-. destruct b as [v|v|[q v|q v n] loc]; cbn [sound g_set_location] in *; auto.
  - destruct b as [v|v|[q v|q v n] loc]; cbn [sound g_set_vectors bind] in *; try (injection E as <-; exact S).
    + apply bind_ok in E. destruct E as ([b1 t] & E & [= <-]). apply bind_ok in E. destruct E as (d & E & [= <- <-]).
      destruct (Z.le_gt_cases (zlen vecs) (vis v)).
      * destruct (copy_vectors_ok v vecs S H) as (d' & E2 & Wd & _ & _). cbn [sound]. congruence.
      * rewrite copy_vectors_panic in E by auto. discriminate.
    + apply bind_ok in E. destruct E as ([b1 t] & E & [= <-]). apply bind_ok in E. destruct E as (d & E & [= <- <-]).
      destruct S as (S1 & S2 & S3).
      destruct (Z.le_gt_cases (zlen vecs) (vis v)).
      * destruct (copy_vectors_ok v vecs S1 H) as (d' & E2 & Wd & Vd & _).
        assert (d' = d) as -> by congruence. cbn [sound]. split; auto. split; auto. lia.
      * rewrite copy_vectors_panic in E by auto. discriminate.
Qed.

Lemma ops_sound l : forall b b', sound b -> apply_ops up b l = Ok b' -> sound b'.
Proof.
  induction l as [|o l IH]; intros b b' S E; cbn [apply_ops] in E.
  - injection E as <-. exact S.
  - apply bind_ok in E. destruct E as (b1 & E1 & E2). eapply IH; [|exact E2]. eapply op_sound; eauto.
Qed.

Lemma reslice_part {A} (s : gslice A) lo hi : wfs s -> 0 <= lo <= hi -> hi <= vis s ->
  exists s', reslice s lo hi = Ok s' /\ visible s' = part lo hi (visible s) /\ vis s' = hi - lo.
Proof.
  intros W H1 H2. unfold wfs in W. unfold reslice.
  destruct ((lo <? 0) || (hi <? lo) || (zlen (back s) <? hi)) eqn:E; [lia|].
  eexists. split; [reflexivity|]. split; [|reflexivity]. unfold visible, part; cbn [vis back].
  rewrite skipn_firstn_comm, firstn_firstn. f_equal. lia.
Qed.

Lemma slice_sound b lo hi : sound b -> 0 <= lo <= hi -> hi <= g_length b ->
  exists b', g_slice b lo hi = Ok b' /\ g_length b' = hi - lo /\ changed (part lo hi) (part lo hi) (part lo hi) b b'.
Proof.
  intros S H1 H2. unfold changed.
  destruct b as [v|v|[q v|q v n] loc]; cbn [sound g_slice buf_slice g_length buf_length] in *.
  - destruct (reslice_part v lo hi S H1 H2) as (w & -> & E & L). cbn [bind]. eexists. split; [reflexivity|].
    cbn [g_length g_scalar g_vector g_count option_map]. rewrite E. auto.
  - destruct (reslice_part v lo hi S H1 H2) as (w & -> & E & L). cbn [bind]. eexists. split; [reflexivity|].
    cbn [g_length g_scalar g_vector g_count option_map]. rewrite E. auto.
  - destruct (reslice_part v lo hi S H1 H2) as (w & -> & E & L). cbn [bind]. eexists. split; [reflexivity|].
    cbn [g_length buf_length g_scalar g_vector g_count option_map]. rewrite E. auto.
  - destruct S as (S1 & S2 & S3).
    destruct (reslice_part v lo hi S1 H1 H2) as (w & -> & E & L).
    destruct (reslice_part n lo hi S2 H1) as (m & -> & E2 & L2); [lia|]. cbn [bind]. eexists. split; [reflexivity|].
    cbn [g_length buf_length g_scalar g_vector g_count option_map]. rewrite E, E2. auto.
Qed.

Lemma clear_all {A} (z : A) (s : gslice A) : wfs s ->
  exists s', for_ 0 (vis s) (fun i v => gset v i z) s = Ok s' /\ visible s' = map (fun _ => z) (visible s) /\ vis s' = vis s.
Proof.
  intros W.
  assert (X : wp (for_ 0 (vis s) (fun i v => gset v i z) s)
    (fun v => wfs v /\ vis v = vis s /\ forall k, 0 <= k < vis s -> zn z (back v) k = z)).
  { apply (for_inv (fun i v => wfs v /\ vis v = vis s /\ forall k, 0 <= k < i -> zn z (back v) k = z));
      [unfold wfs in W; lia|split; [auto|split; [auto|intros; lia]]|].
    intros i v Hi (Wv & Vv & C). rewrite gset_ok by (auto; lia). cbn [wp].
    split; [now apply upd_wf|]. split; [auto|]. intros k Hk. cbn [back].
    rewrite zn_upd by (unfold wfs in Wv; lia). destruct (Z.eqb_spec k i); [reflexivity|]. apply C. lia. }
  apply wp_ok in X. destruct X as (v & -> & Wv & Vv & C). exists v. split; [reflexivity|]. split; [|auto].
  apply (list_ext z).
  - now rewrite zlen_map, !zlen_visible by auto.
  - rewrite zlen_visible by auto. intros k Hk. rewrite visible_nth by auto. rewrite C by lia.
    rewrite (zn_map _ z) by (rewrite zlen_visible by auto; lia). reflexivity.
Qed.

Lemma clear_all2 (v : gslice (vec3 D)) (n : gslice Z) : wfs v -> wfs n -> vis v = vis n ->
  exists v' n', for_ 0 (vis v) (fun i s => let '(v, n) := s in v <- gset v i zero3 ;; n <- gset n i 0 ;; Ok (v, n)) (v, n)
      = Ok (v', n') /\
    visible v' = map (fun _ => zero3) (visible v) /\ visible n' = map (fun _ => 0) (visible n) /\ vis v' = vis v.
Proof.
  intros Wv Wn Evn.
  assert (X : wp (for_ 0 (vis v) (fun i s => let '(v, n) := s in v <- gset v i zero3 ;; n <- gset n i 0 ;; Ok (v, n)) (v, n))
    (fun s => (wfs (fst s) /\ vis (fst s) = vis v /\ forall k, 0 <= k < vis v -> zn zero3 (back (fst s)) k = zero3) /\
      (wfs (snd s) /\ vis (snd s) = vis n /\ forall k, 0 <= k < vis v -> zn 0 (back (snd s)) k = 0))).
  { apply (for_inv (fun i (s : gslice (vec3 D) * gslice Z) =>
      (wfs (fst s) /\ vis (fst s) = vis v /\ forall k, 0 <= k < i -> zn zero3 (back (fst s)) k = zero3) /\
      (wfs (snd s) /\ vis (snd s) = vis n /\ forall k, 0 <= k < i -> zn 0 (back (snd s)) k = 0)));
      [unfold wfs in Wv; lia|cbn [fst snd]; split; (split; [auto|split; [auto|intros; lia]])|].
    intros i [a b] Hi ((A1 & A2 & A3) & (B1 & B2 & B3)). cbn [fst snd] in *.
    rewrite gset_ok by (auto; lia). cbn [bind]. rewrite gset_ok by (auto; lia). cbn [bind wp fst snd vis back].
    split; (split; [now apply upd_wf|]; split; [auto|]; intros k Hk);
      rewrite zn_upd by (unfold wfs in *; lia); destruct (Z.eqb_spec k i); try reflexivity; [apply A3|apply B3]; lia. }
  apply wp_ok in X. destruct X as ([v' n'] & -> & (A1 & A2 & A3) & (B1 & B2 & B3)). cbn [fst snd] in *.
  exists v', n'. split; [reflexivity|]. split; [|split; [|auto]].
  - apply (list_ext zero3).
    + now rewrite zlen_map, !zlen_visible by auto.
    + rewrite zlen_visible by auto. intros k Hk. rewrite visible_nth by auto. rewrite A3 by lia.
      rewrite (zn_map _ zero3) by (rewrite zlen_visible by auto; lia). reflexivity.
  - apply (list_ext 0).
    + now rewrite zlen_map, !zlen_visible by auto.
    + rewrite zlen_visible by auto. intros k Hk. rewrite visible_nth by auto. rewrite B3 by lia.
      rewrite (zn_map _ 0) by (rewrite zlen_visible by auto; lia). reflexivity.
Qed.

Lemma clear_sound b : sound b ->
  exists b', g_clear b = Ok b' /\ g_length b' = g_length b /\
    changed (map (fun _ => nofZ 0)) (map (fun _ => V3 (nofZ 0) (nofZ 0) (nofZ 0))) (map (fun _ => 0)) b b'.
Proof.
  intros S. unfold changed.
  destruct b as [v|v|[q v|q v n] loc]; cbn [sound g_clear buf_clear g_length buf_length] in *.
  - destruct (clear_all (nofZ 0) v S) as (w & -> & E & L). cbn [bind]. eexists. split; [reflexivity|].
    cbn [g_length g_scalar g_vector g_count option_map]. rewrite E. auto.
  - destruct (clear_all zero3 v S) as (w & -> & E & L). cbn [bind]. eexists. split; [reflexivity|].
    cbn [g_length g_scalar g_vector g_count option_map]. rewrite E. auto.
  - destruct (clear_all (nofZ 0) v S) as (w & -> & E & L). cbn [bind]. eexists. split; [reflexivity|].
    cbn [g_length buf_length g_scalar g_vector g_count option_map]. rewrite E. auto.
  - destruct S as (S1 & S2 & S3). destruct (clear_all2 v n S1 S2 S3) as (w & m & -> & E1 & E2 & L).
    cbn [bind]. eexists. split; [reflexivity|].
    cbn [g_length buf_length g_scalar g_vector g_count option_map]. rewrite E1, E2. auto.
Qed.

Lemma slice_thm b0 l b lo hi : fresh b0 -> apply_ops up b0 l = Ok b -> 0 <= lo <= hi -> hi <= g_length b ->
  exists b', g_slice b lo hi = Ok b' /\ g_length b' = hi - lo /\ changed (part lo hi) (part lo hi) (part lo hi) b b'.
Proof. intros A B. apply slice_sound. eapply ops_sound; [|exact B]. now apply fresh_sound. Qed.

Lemma clear_thm b0 l b : fresh b0 -> apply_ops up b0 l = Ok b ->
  exists b', g_clear b = Ok b' /\ g_length b' = g_length b /\
    changed (map (fun _ => nofZ 0)) (map (fun _ => V3 (nofZ 0) (nofZ 0) (nofZ 0))) (map (fun _ => 0)) b b'.
Proof. intros A B. apply clear_sound. eapply ops_sound; [|exact B]. now apply fresh_sound. Qed.

Lemma wrapper_thm rhos : let b := wrapper_density_buffer rhos in
  g_quantity b = Ok 0 /\ g_length b = zlen rhos /\ g_scalar b = Some rhos /\
  g_write down b = Ok (0, Plain (map down rhos)).
Proof.
  cbv zeta. unfold wrapper_density_buffer, g_write. cbn [g_quantity g_length buf_length g_scalar bind g_final_scalar].
  unfold visible, Density, DensityGradient; cbn [vis back Z.eqb bind]. unfold zlen. rewrite Nat2Z.id, firstn_all. auto.
Qed.

Lemma raw_final vals vecs :
  g_final_scalar down (GScalar (GS vals (zlen vals))) = Ok (Some (map down vals)) /\
  g_final_vector down (GScalar (GS vals (zlen vals))) = Ok None /\
  g_final_scalar down (GVector (GS vecs (zlen vecs))) = Ok None /\
  exists xs ys zs, g_final_vector down (GVector (GS vecs (zlen vecs))) = Ok (Some (V3 xs ys zs)) /\
    length xs = length vecs /\ length ys = length vecs /\ length zs = length vecs /\
    forall k v, nth_error vecs k = Some v ->
      nth_error xs k = Some (down (v0 v)) /\ nth_error ys k = Some (down (v1 v)) /\ nth_error zs k = Some (down (v2 v)).
Proof.
  cbn [g_final_scalar g_final_vector]. unfold visible, finalized_scalar, finalized_vectors; cbn [vis back].
  unfold zlen. rewrite !Nat2Z.id, !firstn_all. split; [auto|]. split; [auto|]. split; [auto|].
  eexists _, _, _. split; [reflexivity|]. rewrite !map_length. split; [auto|]. split; [auto|]. split; [auto|].
  intros k v E. repeat split; now apply map_nth_error with (f := fun v => down _).
Qed.
End P.
