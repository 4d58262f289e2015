(** Proofs about Model/RenderMain.v. *)
From Coq Require Import ZArith String List Reals Bool Lia Lra Permutation.
From Coq Require Import ZifyBool ZifyNat.
From Verif Require Import Base.Res Base.ResFacts Base.Num Base.IEEE Base.Convert Model.Geom Model.GridDeriv Model.Cosmo Model.Config Model.Density Model.Box Model.Render Model.SheetIO Model.Main Model.Manager Model.RenderMain
  Spec.GeomDefs Spec.Fields Spec.Work Spec.Deposits Spec.Renders Spec.Segments Spec.RenderMains Spec.ManagerEx Spec.FieldDefs Proof.ImageP Proof.MainQ Proof.ManagerBox Proof.ManagerP Proof.ManagerX.
Import ListNotations.
Open Scope Z_scope.

(** ** NewBox *)
Lemma visible_make {A} (x : A) n : 0 <= n -> visible (GS (repeat x (Z.to_nat n)) n) = repeat x (Z.to_nat n).
Proof. intros H. unfold visible. cbn [vis back]. rewrite <- (repeat_length x (Z.to_nat n)) at 1. apply firstn_all. Qed.

Lemma axis_cases axis : valid_axis axis -> axis = ""%string \/ axis = "X"%string \/ axis = "Y"%string \/ axis = "Z"%string.
Proof. unfold valid_axis. cbn [In]. intuition congruence. Qed.

Lemma fresh_ok q n : 0 <= q < EndQuantity -> 0 <= n -> exists b, new_buffer (ND := RNum) q n = Ok b /\
  contents_of b = match requires_velocity q with Ok true => Vector (repeat (V3 0 0 0)%R (Z.to_nat n)) (repeat 0 (Z.to_nat n)) | _ => Scalar (repeat 0%R (Z.to_nat n)) end.
Proof.
  unfold EndQuantity. intros Hq Hn. assert (C : q = 0 \/ q = 1 \/ q = 2 \/ q = 3 \/ q = 4) by lia.
  assert (L : (n <? 0) = false) by lia.
  destruct C as [->|[->|[->|[->| ->]]]]; unfold new_buffer, gmake; rewrite L; cbn [bind]; cbn; eexists; (split; [reflexivity|]); cbn; rewrite ?visible_make by lia; reflexivity.
Qed.

Definition cells_at (L : R) (cells : Z) (config : box_config R) := box_cells (ND := RNum) L cells (bx_o config) (bx_w config).
Lemma cells_at_ok L cells config a : (0 < L)%R -> 0 < cells -> In a [0; 1; 2] -> (0 <= vget (bx_w config) a)%R ->
  let first := vget (origin (cells_at L cells config)) a in let n := vget (width (cells_at L cells config)) a in let h := (L / IZR cells)%R in
  1 <= n /\ (IZR first * h <= vget (bx_o config) a < IZR (first + 1) * h)%R /\
  (IZR (first + n - 1) * h <= vget (bx_o config) a + vget (bx_w config) a < IZR (first + n) * h)%R /\
  (forall c, (vget (bx_w config) a <= IZR (c - 1) * h)%R -> n <= c).
Proof.
  intros HL Hc Ha Hw. cbv zeta.
  assert (Hh : (0 < L / IZR cells)%R) by (apply Rdiv_lt_0_compat; [exact HL|apply IZR_lt; lia]).
  pose proof (box_cells_ok (L / IZR cells) (vget (bx_o config) a) (vget (bx_w config) a) Hh Hw) as B.
  unfold cells_at, box_cells. cbn [In] in Ha.
  destruct Ha as [<-|[<-|[<-|[]]]]; (destruct B as (B1 & _ & B2 & B3 & B4); split; [exact B1|]; split; [exact B2|]; split; [exact B3|exact B4]).
Qed.

Theorem new_box_ok L cells pts q config : (0 < L)%R -> 0 < cells -> 0 <= q < EndQuantity -> valid_axis (bx_axis config) ->
  (forall a, In a [0; 1; 2] -> (0 <= vget (bx_w config) a)%R) ->
  exists b, new_box (ND := RNum) L pts cells q config = Ok b /\ shows L cells pts q config b.
Proof.
  intros HL Hc Hq Hax Hw.
  assert (HC := fun a Ha => cells_at_ok L cells config a HL Hc Ha (Hw a Ha)). cbv zeta in HC.
  set (cb := cells_at L cells config) in *.
  assert (W : 1 <= v0 (width cb) /\ 1 <= v1 (width cb) /\ 1 <= v2 (width cb)).
  { pose proof (HC 0 ltac:(cbn; tauto)). pose proof (HC 1 ltac:(cbn; tauto)). pose proof (HC 2 ltac:(cbn; tauto)).
    cbn [vget Z.eqb] in *. tauto. }
  assert (HS : forall p, (match p with Some p => 0 <= p <= 2 | None => True end) -> 0 <= volume (image_size (RB cb pts cells (L / IZR cells)%R p (Scalar [])))).
  { intros [p|] Hp.
    - assert (p = 0 \/ p = 1 \/ p = 2) as [->|[->| ->]] by lia;
        [change (0 <= v1 (width cb) * v2 (width cb) * 1)|change (0 <= v0 (width cb) * v2 (width cb) * 1)|change (0 <= v0 (width cb) * v1 (width cb) * 1)];
        repeat apply Z.mul_pos_pos; lia.
    - change (0 <= v0 (width cb) * v1 (width cb) * v2 (width cb)). repeat apply Z.mul_pos_pos; lia. }
  assert (HB : forall p, (match p with Some p => 0 <= p <= 2 | None => True end) ->
     p = (if projectable q then axis_index (bx_axis config) else None) ->
     exists b, new_buffer (ND := RNum) q (volume (image_size (RB cb pts cells (L / IZR cells)%R p (Scalar [])))) = Ok b /\
     shows L cells pts q config (RB cb pts cells (L / IZR cells)%R p (contents_of b))).
  { intros p Hp Ep. destruct (fresh_ok q _ Hq (HS p Hp)) as (b & E & Cb). exists b. split; [exact E|].
    unfold shows. cbn [rb_cells rb_pts rb_cw rb_cb rb_proj rb_vals]. repeat (split; [reflexivity|]). split.
    - intros a Ha. cbv zeta. destruct (HC a Ha) as (_ & A & B & _). exact (conj A B).
    - split; [exact Ep|]. rewrite Cb. reflexivity. }
  unfold new_box, is_projection.
  assert (CP : can_project q = Ok (projectable q)).
  { unfold can_project, projectable, EndQuantity in *. assert (C : q = 0 \/ q = 1 \/ q = 2 \/ q = 3 \/ q = 4) by lia.
    destruct C as [->|[->|[->|[->| ->]]]]; reflexivity. }
  assert (H3 : projectable q = false \/ bx_axis config = ""%string -> exists b, new_box3D (ND := RNum) L pts cells q config = Ok b /\ shows L cells pts q config b).
  { intros Hp. destruct (HB None I) as (b & E & S).
    - destruct Hp as [-> | ->]; [reflexivity|now destruct (projectable q)].
    - assert (E3 : new_box3D (ND := RNum) L pts cells q config = (b <- new_buffer (ND := RNum) q (v0 (width cb) * v1 (width cb) * v2 (width cb)) ;; Ok (RB cb pts cells (L / IZR cells)%R None (contents_of b)))%res) by reflexivity.
      rewrite E3. change (volume _) with (v0 (width cb) * v1 (width cb) * v2 (width cb)) in E. rewrite E. cbn [bind].
      eexists. split; [reflexivity|exact S]. }
  destruct (axis_cases _ Hax) as [Ea|Ea].
  - rewrite Ea. cbn. now apply H3; right.
  - assert (En : String.eqb (bx_axis config) "" = false) by (destruct Ea as [->|[->| ->]]; reflexivity).
    rewrite En, CP. cbn [negb bind]. destruct (projectable q) eqn:Ep; [|now apply H3; left].
    assert (exists p, 0 <= p <= 2 /\ axis_index (bx_axis config) = Some p /\ axis_number (bx_axis config) = Ok p) as (p & Hp & E1 & E2).
    { destruct Ea as [->|[->| ->]]; [exists 0|exists 1|exists 2]; split; try lia; split; reflexivity. }
    destruct (HB (Some p) Hp (eq_sym E1)) as (b & E & S).
    assert (E3 : new_box2D (ND := RNum) L pts cells q config = (b <- new_buffer (ND := RNum) q (volume (image_size (RB cb pts cells (L / IZR cells)%R (Some p) (Scalar [])))) ;; Ok (RB cb pts cells (L / IZR cells)%R (Some p) (contents_of b)))%res).
    { unfold new_box2D. rewrite E2. cbn [bind].
      assert (p = 0 \/ p = 1 \/ p = 2) as [->|[->| ->]] by lia;
        [change (volume _) with (v1 (width cb) * v2 (width cb) * 1)|change (volume _) with (v0 (width cb) * v2 (width cb) * 1)|change (volume _) with (v0 (width cb) * v1 (width cb) * 1)];
        rewrite Z.mul_1_r; reflexivity. }
    rewrite E3, E. cbn [bind]. eexists. split; [reflexivity|exact S].
Qed.

(** ** Bounds files *)
Definition add_checked {A B} (check : A -> option B) (acc : option (list B)) (a : A) : option (list B) :=
  match acc with None => None | Some l => match check a with None => None | Some b => Some (l ++ [b]) end end.
Lemma checked_none {A B} (check : A -> option B) l : fold_left (add_checked check) l None = None.
Proof. induction l; auto. Qed.
Lemma checked_iff {A B} (check : A -> option B) l : forall acc r, fold_left (add_checked check) l (Some acc) = Some r <->
  exists m, r = acc ++ m /\ Forall2 (fun a b => check a = Some b) l m.
Proof.
  induction l as [|a l IH]; intros acc r; cbn [fold_left].
  - split; [intros E; injection E as <-; exists []; rewrite app_nil_r; auto|].
    intros (m & -> & F). inversion F. now rewrite app_nil_r.
  - unfold add_checked at 2. destruct (check a) as [b|] eqn:E.
    + rewrite IH. split.
      * intros (m & -> & F). exists (b :: m). rewrite <- app_assoc. auto.
      * intros (m & -> & F). inversion F as [|? b' ? m' E' F']; subst. rewrite E in E'. injection E' as <-. exists m'. rewrite <- app_assoc. auto.
    + rewrite checked_none. split; [discriminate|]. intros (m & _ & F). inversion F; congruence.
Qed.

Definition ball_check (L : R) (b : ball_config R) : option (box_config R) :=
  match ball_check_init b L with None => None | Some b => Some (ball_box b L) end.
Lemma bounds_iff L balls boxes r : read_bounds (ND := RNum) balls boxes L = Some r <->
  exists l1 l2, r = l1 ++ l2 /\ Forall2 (fun a b => ball_check L a = Some b) balls l1 /\ Forall2 (fun a b => box_check_init a L = Some b) boxes l2.
Proof.
  unfold read_bounds. cbv zeta.
  change (fold_left (add_checked (fun b => box_check_init b L)) boxes (fold_left (add_checked (ball_check L)) balls (Some [])) = Some r <-> 
    exists l1 l2, r = l1 ++ l2 /\ Forall2 (fun a b => ball_check L a = Some b) balls l1 /\ Forall2 (fun a b => box_check_init a L = Some b) boxes l2).
  destruct (fold_left (add_checked (ball_check L)) balls (Some [])) as [l1|] eqn:E.
  - rewrite checked_iff. apply checked_iff in E. destruct E as (m1 & -> & F1). cbn [app]. split.
    + intros (m & -> & F). exists m1, m. auto.
    + intros (k1 & k2 & -> & G1 & G2). exists k2. split; [|exact G2]. f_equal.
      clear G2. revert k1 G1. induction F1 as [|a b balls l H F IH]; intros k1 G1; inversion G1; subst; [reflexivity|]. f_equal; [congruence|auto].
  - rewrite checked_none. split; [discriminate|]. intros (k1 & k2 & -> & G1 & G2).
    assert (X : fold_left (add_checked (ball_check L)) balls (Some []) = Some k1) by (apply checked_iff; exists k1; split; [reflexivity|exact G1]). congruence.
Qed.

Lemma named_split {A B C} (f : A -> B -> Prop) (l : list (C * A)) m : Forall2 f (map snd l) m ->
  Forall2 (fun s c => fst c = fst s /\ f (snd s) (snd c)) l (combine (map fst l) m).
Proof.
  revert m. induction l as [|[c a] l IH]; intros m F; inversion F; subst; cbn; constructor; auto.
Qed.
Lemma named_join {A B C} (f : A -> B -> Prop) (l : list (C * A)) m : Forall2 (fun s c => fst c = fst s /\ f (snd s) (snd c)) l m ->
  exists n, Forall2 f (map snd l) n /\ m = combine (map fst l) n /\ List.length n = List.length l.
Proof.
  intros X. induction X as [|s t l m H F IH].
  { exists []. split; [constructor|split; reflexivity]. }
  destruct IH as (n & F' & E & EL). destruct s as [c a], t as [c' b], H as [H1 H2].
  cbn [fst snd] in *. exists (b :: n). cbn. subst. split; [|split; [reflexivity|now rewrite EL]]. now constructor.
Qed.
Lemma combine_app {A B} (l1 : list A) (m1 : list B) l2 m2 : List.length l1 = List.length m1 -> combine (l1 ++ l2) (m1 ++ m2) = combine l1 m1 ++ combine l2 m2.
Proof. revert m1. induction l1 as [|a l1 IH]; intros [|b m1]; cbn; try discriminate; auto. intros E. f_equal. auto. Qed.
Lemma Forall2_len {A B} (P : A -> B -> Prop) l m : Forall2 P l m -> List.length l = List.length m.
Proof. induction 1; cbn; congruence. Qed.

Lemma named_iff L b l : read_named (ND := RNum) b L = Some l <-> accepted_sections L b l.
Proof.
  unfold read_named, accepted_sections.
  assert (BE : forall s c, ball_check L s = Some c <-> exists ball, ball_check_init s L = Some ball /\ c = ball_box ball L).
  { intros s c. unfold ball_check. destruct (ball_check_init s L) as [b0|]; split; try discriminate.
    - intros E. injection E as <-. eauto.
    - intros (? & E & ->). congruence.
    - intros (? & E & _). discriminate. }
  destruct (read_bounds (map snd (bf_balls b)) (map snd (bf_boxes b)) L) as [r|] eqn:E.
  - apply bounds_iff in E. destruct E as (r1 & r2 & -> & F1 & F2).
    assert (EL : List.length (map fst (bf_balls b)) = List.length r1) by (apply Forall2_len in F1; rewrite map_length in *; exact F1).
    rewrite combine_app by exact EL. split.
    + intros E. injection E as <-. exists (combine (map fst (bf_balls b)) r1), (combine (map fst (bf_boxes b)) r2). split; [reflexivity|].
      apply named_split in F1, F2. split; [|exact F2].
      clear - F1 BE. induction F1 as [|? ? ? ? [A B]]; constructor; auto. split; [exact A|now apply BE].
    + intros (l1 & l2 & -> & G1 & G2).
      assert (G1' : Forall2 (fun s c => fst c = fst s /\ ball_check L (snd s) = Some (snd c)) (bf_balls b) l1).
      { clear - G1 BE. induction G1 as [|? ? ? ? [A B]]; constructor; auto. split; [exact A|now apply BE]. }
      destruct (named_join (fun a c => ball_check L a = Some c) _ _ G1') as (n1 & N1 & -> & _).
      destruct (named_join (fun a c => box_check_init a L = Some c) _ _ G2) as (n2 & N2 & -> & _).
      assert (U : forall {A B} (f : A -> option B) l m m', Forall2 (fun a b => f a = Some b) l m -> Forall2 (fun a b => f a = Some b) l m' -> m = m').
      { intros A B f l m m' P. revert m'. induction P; intros m' Q; inversion Q; subst; [reflexivity|]. f_equal; [congruence|auto]. }
      rewrite (U _ _ (ball_check L) _ _ _ N1 F1), (U _ _ (fun a => box_check_init a L) _ _ _ N2 F2). reflexivity.
  - split; [discriminate|]. intros (l1 & l2 & -> & G1 & G2).
    assert (G1' : Forall2 (fun s c => fst c = fst s /\ ball_check L (snd s) = Some (snd c)) (bf_balls b) l1).
    { clear - G1 BE. induction G1 as [|? ? ? ? [A B]]; constructor; auto. split; [exact A|now apply BE]. }
    destruct (named_join (fun a c => ball_check L a = Some c) _ _ G1') as (n1 & N1 & -> & _).
    destruct (named_join (fun a c => box_check_init a L = Some c) _ _ G2) as (n2 & N2 & -> & _).
    assert (X : read_bounds (ND := RNum) (map snd (bf_balls b)) (map snd (bf_boxes b)) L = Some (n1 ++ n2)) by (apply bounds_iff; exists n1, n2; auto). congruence.
Qed.

Theorem all_bounds_thm L bounds :
  (forall configs, all_bounds (ND := RNum) bounds L = Ok configs <->
     exists parts, Forall2 (fun b l => exists f, b = Some f /\ accepted_sections L f l) bounds parts /\ configs = concat parts) /\
  ((forall configs, all_bounds (ND := RNum) bounds L <> Ok configs) -> all_bounds (ND := RNum) bounds L = Fatal).
Proof.
  induction bounds as [|[b|] bounds [IH1 IH2]]; cbn [all_bounds].
  - split; [|intros H; now destruct (H [])]. intros configs. split.
    + intros E. injection E as <-. exists []. auto.
    + intros (parts & F & ->). inversion F. reflexivity.
  - destruct (read_named b L) as [l|] eqn:E.
    + apply named_iff in E. split.
      * intros configs. destruct (all_bounds bounds L) as [more| | |] eqn:EM; cbn [bind].
        -- split.
           ++ intros X. injection X as <-. destruct (proj1 (IH1 more) eq_refl) as (parts & F & ->). exists (l :: parts). split; [|reflexivity]. constructor; eauto.
           ++ intros (parts & F & ->). inversion F as [|? l' ? parts' (f & Ef & A) F']; subst. injection Ef as <-.
              assert (more = concat parts') by (assert (X : Ok more = Ok (concat parts')) by (apply IH1; eauto); congruence).
              apply named_iff in A, E. cbn. congruence.
        -- split; [discriminate|]. intros (parts & F & ->). inversion F as [|? l' ? parts' _ F']; subst. pose proof (proj2 (IH1 (concat parts')) (ex_intro _ parts' (conj F' eq_refl))). discriminate.
        -- split; [discriminate|]. intros (parts & F & ->). inversion F as [|? l' ? parts' _ F']; subst. pose proof (proj2 (IH1 (concat parts')) (ex_intro _ parts' (conj F' eq_refl))). discriminate.
        -- split; [discriminate|]. intros (parts & F & ->). inversion F as [|? l' ? parts' _ F']; subst. pose proof (proj2 (IH1 (concat parts')) (ex_intro _ parts' (conj F' eq_refl))). discriminate.
      * destruct (all_bounds bounds L) as [more| | |] eqn:EM; cbn [bind]; intros H.
        -- now destruct (H (l ++ more)).
        -- first [reflexivity|exfalso; assert (X := IH2 ltac:(discriminate)); discriminate].
        -- first [reflexivity|exfalso; assert (X := IH2 ltac:(discriminate)); discriminate].
        -- first [reflexivity|exfalso; assert (X := IH2 ltac:(discriminate)); discriminate].
    + split; [|reflexivity]. intros configs. split; [discriminate|]. intros (parts & F & ->).
      inversion F as [|? l' ? parts' (f & Ef & A) F']; subst. injection Ef as <-. apply named_iff in A. congruence.
  - split; [|reflexivity]. intros configs. split; [discriminate|]. intros (parts & F & ->).
    inversion F as [|? l' ? parts' (f & Ef & A) F']; subst. discriminate.
Qed.

(** ** renderMain *)
Lemma vget_v {A} (v : vec3 A) : vget v 0 = v0 v /\ vget v 1 = v1 v /\ vget v 2 = v2 v.
Proof. repeat split. Qed.

Lemma good_fits L con c : (0 < L)%R -> good_config L con c -> box_fits L c.
Proof.
  intros HL (_ & cells & pts & _ & Hc & HA). unfold box_fits.
  assert (Hb : (IZR (cells - 1) * (L / IZR cells) <= L)%R).
  { rewrite minus_IZR. assert (0 < IZR cells)%R by (apply IZR_lt; lia).
    replace L with (IZR cells * (L / IZR cells))%R at 2 by (field; lra).
    apply Rmult_le_compat_r; [|lra]. apply Rlt_le, Rdiv_lt_0_compat; assumption. }
  pose proof (HA 0 ltac:(cbn; tauto)) as A0. pose proof (HA 1 ltac:(cbn; tauto)) as A1. pose proof (HA 2 ltac:(cbn; tauto)) as A2.
  destruct (vget_v (bx_w c)) as (V0 & V1 & V2). rewrite V0 in A0. rewrite V1 in A1. rewrite V2 in A2. lra.
Qed.

Lemma axis_index_ok a : match axis_index a with Some p => 0 <= p <= 2 | None => True end.
Proof. unfold axis_index. repeat (destruct (String.eqb a _); [lia|]). exact I. Qed.

Lemma shows_cells L cells pts q c b : (0 < L)%R -> 4 <= cells ->
  (forall a, In a [0; 1; 2] -> (0 <= vget (bx_o c) a < L)%R /\ (0 < vget (bx_w c) a <= IZR (cells - 1) * (L / IZR cells))%R) ->
  shows L cells pts q c b ->
  (forall a, In a [0; 1; 2] -> 0 <= vget (origin (rb_cb b)) a < cells /\ 0 < vget (width (rb_cb b)) a <= cells) /\
  match rb_proj b with Some p => 0 <= p <= 2 | None => True end /\ 0 < volume (image_size b) /\ (rb_cw b * IZR cells = L)%R.
Proof.
  intros HL Hc HA (E1 & E2 & E3 & HB & E4 & E5). assert (Hc' : (0 < IZR cells)%R) by (apply IZR_lt; lia).
  assert (Hh : (0 < L / IZR cells)%R) by (apply Rdiv_lt_0_compat; assumption).
  assert (HW : forall a, In a [0; 1; 2] -> 0 <= vget (origin (rb_cb b)) a < cells /\ 0 < vget (width (rb_cb b)) a <= cells).
  { intros a Ha. specialize (HA a Ha). specialize (HB a Ha). cbv zeta in HB. rewrite E3 in HB.
    set (f := vget (origin (rb_cb b)) a) in *. set (n := vget (width (rb_cb b)) a) in *. set (h := (L / IZR cells)%R) in *.
    assert (EL : L = (IZR cells * h)%R) by (unfold h; field; lra).
    assert (Z1 : forall i j, (IZR i * h < IZR j * h)%R -> i < j) by (intros i j H; apply lt_IZR; apply (Rmult_lt_reg_r h); assumption).
    assert (0 < f + 1) by (apply Z1; lra). assert (f < cells) by (apply Z1; lra).
    assert (f < f + n) by (apply Z1; lra).
    assert (f + n - 1 < f + 1 + (cells - 1)).
    { apply Z1. rewrite (plus_IZR (f + 1)), Rmult_plus_distr_r. lra. }
    lia. }
  split; [exact HW|]. rewrite E4, E3. split; [|split; [|field; lra]].
  - destruct (projectable q); [apply axis_index_ok|exact I].
  - pose proof (HW 0 ltac:(cbn; tauto)). pose proof (HW 1 ltac:(cbn; tauto)). pose proof (HW 2 ltac:(cbn; tauto)).
    destruct (vget_v (width (rb_cb b))) as (V0 & V1 & V2). rewrite V0, V1, V2 in *. unfold image_size. rewrite E4.
    assert (HP := axis_index_ok (bx_axis c)).
    destruct (projectable q); [destruct (axis_index (bx_axis c)) as [p|]|].
    + assert (p = 0 \/ p = 1 \/ p = 2) as [->|[->| ->]] by lia; unfold image_axes; cbn [Z.eqb Pos.eqb volume]; rewrite ?V0, ?V1, ?V2; repeat apply Z.mul_pos_pos; lia.
    + unfold wcell, volume. repeat apply Z.mul_pos_pos; lia.
    + unfold wcell, volume. repeat apply Z.mul_pos_pos; lia.
Qed.

Lemma shows_ok L cells pts q c b : (0 < L)%R -> 4 <= cells -> 0 < pts -> requires_velocity q = Ok false ->
  (forall a, In a [0; 1; 2] -> (0 <= vget (bx_o c) a < L)%R /\ (0 < vget (bx_w c) a <= IZR (cells - 1) * (L / IZR cells))%R) ->
  shows L cells pts q c b -> box_ok L b.
Proof.
  intros HL Hc Hp Hq HA S. destruct (shows_cells L cells pts q c b HL Hc HA S) as (HW & HP & HV & HL').
  destruct S as (E1 & E2 & E3 & HB & E4 & E5). unfold box_ok. rewrite E1, E2.
  split; [exact Hc|]. split; [exact HL'|]. split; [exact Hp|]. split; [exact HW|]. split; [exact HP|].
  rewrite E5, Hq. split; [|reflexivity]. unfold sized, zlen. rewrite repeat_length. apply Z2Nat.id; lia.
Qed.

Lemma config_box_ok L con q c : (0 < L)%R -> accepted_render con = true -> 0 <= q < EndQuantity -> good_config L con c ->
  exists b, config_box (ND := RNum) con L q c = Ok b /\
    exists cells pts, box_numbers con c L = Ok (cells, pts) /\ shows L cells pts q c b.
Proof.
  intros HL Hcon Hq HG. pose proof (good_fits L con c HL HG) as HF. destruct HG as (Hax & cells & pts & EN & Hc & HA).
  destruct (new_box_ok L cells pts q c HL ltac:(lia) Hq Hax) as (b & EB & S).
  { intros a Ha. apply Rlt_le, (HA a Ha). }
  exists b. split; [|exists cells, pts; auto]. unfold config_box. rewrite EN. cbn [bind]. exact EB.
Qed.

(** What is asked of the inputs of a run. *)
Section Whole.
Variables (L : R) (con : render_config) (names : render_names) (bounds : list (option (bounds_file R))) (parts : list (list (string * box_config R)))
  (q workers : Z) (rnd : Z -> Z -> vec3 R) (choose : Z -> Z -> Z -> Z -> Z) (order : Z -> Z -> list Z) (fs : string -> option (sheet_file R R))
  (sheet : string -> sheet_file R R) (X : string -> list (vec3 R)) (files : list string) (grid : Z).
Hypothesis IN : main_input L con names bounds parts q workers rnd choose order fs sheet X files grid.
Let skip := rc_subsample con.
Let configs := concat parts.
Let run := render_main (ND := RNum) (NF := RNum) (fun x => x) (fun x => x) fs workers rnd choose order files con names bounds.

Lemma main_run : exists boxes out,
  Forall2 (fun c b => exists cells pts, box_numbers con (snd c) L = Ok (cells, pts) /\ shows L cells pts q (snd c) b) configs boxes /\
  Forall (box_ok L) boxes /\
  (forall file b, In file files -> In b boxes -> faces_ok L skip b (sheet file) (X file) (unit_pool rnd (rb_pts b))) /\
  render_job (ND := RNum) (NF := RNum) (fun x => x) (fun x => x) fs workers rnd choose order files boxes q skip = Ok out /\
  Forall2 (fun b b' => rendered L skip (unit_pool rnd (rb_pts b)) (map (fun file => (sheet file, X file)) files) b b') boxes out /\
  render_boxes (ND := RNum) (NF := RNum) (fun x => x) (fun x => x) fs workers rnd choose order files con names bounds = Ok (L, q, combine configs out) /\
  run = Ok (map (fun p => (output_path names (fst (fst p)), output con (snd (fst p)) (snd p))) (combine configs out)).
Proof.
  destruct IN as (HL & HFil & Hcon & HQ & HP & HNE & HG & HWk & HR & HC & HO & HF). fold configs in HNE, HG, HF. fold skip in HF.
  assert (Hq : requires_velocity q = Ok false /\ 0 <= q < EndQuantity /\ quantity_from_string (rn_quantity names) = (q, true)).
  { destruct HQ as [[-> ->] | [-> ->]]; (split; [reflexivity|split; [unfold EndQuantity, Density, DensityGradient; lia|reflexivity]]). }
  destruct Hq as (Hq & Hqr & HS).
  destruct (map_res_ex (fun c => config_box (ND := RNum) con L q (snd c)) (fun c b => exists cells pts, box_numbers con (snd c) L = Ok (cells, pts) /\ shows L cells pts q (snd c) b) configs) as (boxes & EB & FB).
  { apply Forall_forall. intros c Hin. apply config_box_ok; auto. rewrite Forall_forall in HG. auto. }
  assert (HIB : forall b, In b boxes -> exists c, In c configs /\ exists cells pts, box_numbers con (snd c) L = Ok (cells, pts) /\ shows L cells pts q (snd c) b).
  { clear - FB. induction FB as [|c b l m H F IH]; intros b' Hin; [destruct Hin|]. destruct Hin as [->|Hin].
    - exists c. split; [now left|exact H].
    - destruct (IH b' Hin) as (c' & A & B). exists c'. split; [now right|exact B]. }
  assert (HBO : Forall (box_ok L) boxes).
  { apply Forall_forall. intros b Hin. destruct (HIB b Hin) as (c & Hc & cells & pts & EN & S).
    rewrite Forall_forall in HG. specialize (HG c Hc). pose proof (good_fits L con _ HL HG) as HFit.
    destruct (numbers_thm con (snd c) L Hcon HFit) as (cells' & pts' & EN' & _ & Hpts & _).
    destruct HG as (_ & cells2 & pts2 & EN2 & Hc4 & HA). rewrite EN in EN2, EN'. injection EN2 as <- <-. injection EN' as <- <-.
    eapply shows_ok; eauto. }
  assert (HFA : forall file b, In file files -> In b boxes -> faces_ok L skip b (sheet file) (X file) (unit_pool rnd (rb_pts b))).
  { intros file b Hf Hb. destruct (HIB b Hb) as (c & Hc & cells & pts & EN & S).
    destruct (HF file Hf) as (_ & _ & _ & HFF). exact (HFF c cells pts b Hc EN S). }
  assert (HBN : boxes <> []).
  { intros ->. inversion FB. auto. }
  destruct (job_ok L skip q workers rnd choose order fs sheet X files boxes grid) as (out & EJ & FJ); auto.
  { intros file Hf. destruct (HF file Hf) as (A & B & D & _). auto. }
  exists boxes, out. split; [exact FB|]. split; [exact HBO|]. split; [exact HFA|]. split; [exact EJ|]. split; [exact FJ|].
  match goal with |- ?A /\ _ => cut A; [intros EA; split; [exact EA|unfold run, render_main; rewrite EA; reflexivity]|] end.
  unfold render_boxes. destruct files as [|f0 files'] eqn:EF; [congruence|].
  change (get (f0 :: files') 0) with (Ok f0). cbn [bind].
  destruct (HF f0 (or_introl eq_refl)) as (Ef0 & (ET & _) & _ & _). rewrite Ef0. unfold first_total. rewrite ET.
  rewrite (proj2 (proj1 (all_bounds_thm L bounds) configs)) by (exists parts; auto). cbn [bind]. rewrite HS. cbn [negb].
  rewrite EB. cbn [bind]. fold skip. rewrite EJ. reflexivity.
Qed.

Lemma combine_out {A B C} (f : A * B -> C) (P : A -> C -> Prop) (l : list A) (m : list B) :
  Forall2 (fun a b => P a (f (a, b))) l m -> Forall2 P l (map f (combine l m)).
Proof. induction 1; cbn; constructor; auto. Qed.
Lemma Forall2_two {A B C} (P : A -> B -> Prop) (Q : B -> C -> Prop) l m n : Forall2 P l m -> Forall2 Q m n ->
  Forall2 (fun a c => exists b, P a b /\ Q b c) l n.
Proof. intros F. revert n. induction F; intros n G; inversion G; subst; constructor; eauto. Qed.

Theorem main_ok : exists out, run = Ok out /\
  Forall2 (fun c o => exists cells pts b b', box_numbers con (snd c) L = Ok (cells, pts) /\ shows L cells pts q (snd c) b /\
     rendered L skip (unit_pool rnd pts) (map (fun file => (sheet file, X file)) files) b b' /\
     o = (output_path names (fst c), output con (snd c) b')) configs out.
Proof.
  destruct main_run as (boxes & out & FB & _ & _ & _ & FJ & _ & ER). rewrite ER. eexists. split; [reflexivity|].
  apply combine_out. pose proof (Forall2_two _ _ _ _ _ FB FJ) as FF. clear - FF.
  induction FF as [|c b' l m (b & (cells & pts & EN & S) & R) F IH]; constructor; [|exact IH].
  exists cells, pts, b, b'. split; [exact EN|]. split; [exact S|]. split; [|reflexivity].
  destruct S as (_ & Ep & _). rewrite Ep in R. exact R.
Qed.
End Whole.
