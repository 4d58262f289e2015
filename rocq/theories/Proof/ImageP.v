(** Images: finalised buffers, projected velocities, box cells, workers and Add. *)
From Coq Require Import ZArith List Bool Reals Lra Lia ZifyBool ZifyNat Permutation.
From Flocq Require Import Core.Raux.
From Verif Require Import Base.Res Base.ResFacts Base.Num Base.IEEE Base.Convert Model.Geom Model.GridDeriv Model.Density Model.Box Model.Render.
From Verif Require Import Spec.Geometry Spec.Fields Spec.FieldDefs Spec.Matrix Spec.Work Spec.Workspace Spec.Deposits Spec.Images Proof.SumP Proof.RenderP Proof.DepositP Proof.AddP Proof.WorkersP.
Import ListNotations.
Open Scope R_scope.
Local Notation idR := (fun x : R => x).

(** ** Averages *)
Local Notation vz := (V3 0 0 0 : vec3 R).
Definition avg_body (sel : vec3 R -> R) (vecs : list (vec3 R)) (num : list Z) (i : Z) (out : vec3 (list R)) : res (vec3 (list R)) :=
  let c := zn 0%Z num i in let v := zn vz vecs i in
  if (c =? 0)%Z then Ok out else
  bind (set (v0 out) i (v0 v / IZR c)) (fun xs => bind (set (v1 out) i (sel v / IZR c)) (fun ys =>
  bind (set (v2 out) i (v2 v / IZR c)) (fun zs => Ok (V3 xs ys zs)))).

Lemma avg_loop sel vecs num n body : zlen vecs = n ->
  (forall i out, (0 <= i < n)%Z -> body i out = avg_body sel vecs num i out) ->
  let z := repeat 0 (List.length vecs) in
  exists o, for_ 0 n body (V3 z z z) = Ok o /\
    zlen (v0 o) = n /\ zlen (v1 o) = n /\ zlen (v2 o) = n /\
    forall i, (0 <= i < n)%Z -> let v := zn vz vecs i in
      zn 0 (v0 o) i = average (v0 v) (zn 0%Z num i) /\ zn 0 (v1 o) i = average (sel v) (zn 0%Z num i) /\ zn 0 (v2 o) i = average (v2 v) (zn 0%Z num i).
Proof.
  intros HL HB z. assert (H0 : (0 <= n)%Z) by (subst n; apply zlen_nonneg).
  assert (Hz : zlen z = n) by (unfold z, zlen in *; rewrite repeat_length; auto).
  assert (Hzn : forall i, zn 0 z i = 0).
  { intros i. unfold zn, z. destruct (Nat.lt_ge_cases (Z.to_nat i) (List.length vecs)).
    - now rewrite nth_repeat. - rewrite nth_overflow; auto. now rewrite repeat_length. }
  assert (K : wp (for_ 0 n body (V3 z z z)) (fun o => zlen (v0 o) = n /\ zlen (v1 o) = n /\ zlen (v2 o) = n /\
    forall i, (0 <= i < n)%Z -> let v := zn vz vecs i in
      zn 0 (v0 o) i = (if (i <? n)%Z then average (v0 v) (zn 0%Z num i) else 0) /\
      zn 0 (v1 o) i = (if (i <? n)%Z then average (sel v) (zn 0%Z num i) else 0) /\
      zn 0 (v2 o) i = (if (i <? n)%Z then average (v2 v) (zn 0%Z num i) else 0))).
  { apply (for_inv (fun m o => zlen (v0 o) = n /\ zlen (v1 o) = n /\ zlen (v2 o) = n /\
      forall i, (0 <= i < n)%Z -> let v := zn vz vecs i in
      zn 0 (v0 o) i = (if (i <? m)%Z then average (v0 v) (zn 0%Z num i) else 0) /\
      zn 0 (v1 o) i = (if (i <? m)%Z then average (sel v) (zn 0%Z num i) else 0) /\
      zn 0 (v2 o) i = (if (i <? m)%Z then average (v2 v) (zn 0%Z num i) else 0))); [lia| |].
    - cbn [v0 v1 v2]. repeat split; auto; rewrite Hzn; replace (i <? 0)%Z with false by lia; auto.
    - intros k o Hk (L0 & L1 & L2 & HI). rewrite HB by lia. unfold avg_body. cbn zeta.
      destruct (Z.eqb_spec (zn 0%Z num k) 0) as [Ec|Ec].
      + cbn [wp]. split; [auto|]. split; [auto|]. split; [auto|]. intros i Hi. specialize (HI i Hi). cbn zeta in HI |- *.
        destruct HI as (A & B & C). destruct (Z.eq_dec i k) as [->|Hne].
        * replace (k <? k)%Z with false in * by lia. replace (k <? k + 1)%Z with true by lia.
          unfold average. rewrite Ec. cbn [Z.eqb]. auto.
        * replace (i <? k + 1)%Z with (i <? k)%Z by lia. auto.
      + rewrite !set_ok by lia. cbn [bind wp]. cbn [v0 v1 v2]. rewrite !zlen_upd.
        split; [auto|]. split; [auto|]. split; [auto|]. intros i Hi. specialize (HI i Hi). cbn zeta in HI |- *.
        destruct HI as (A & B & C). destruct (Z.eq_dec i k) as [->|Hne].
        * rewrite !zn_upd_eq by lia. replace (k <? k + 1)%Z with true by lia.
          unfold average. apply Z.eqb_neq in Ec. rewrite Ec. auto.
        * rewrite !zn_upd_neq by lia. replace (i <? k + 1)%Z with (i <? k)%Z by lia. auto. }
  apply wp_ok in K. destruct K as (o & E & L0 & L1 & L2 & HI). exists o. split; [auto|]. split; [auto|]. split; [auto|]. split; [auto|].
  intros i Hi. specialize (HI i Hi). replace (i <? n)%Z with true in HI by lia. exact HI.
Qed.

Lemma get_zn {A} (d : A) l i : (0 <= i < zlen l)%Z -> get l i = Ok (zn d l i).
Proof. apply get_ok. Qed.

Theorem velocity_averages vecs num : zlen num = zlen vecs -> (zlen vecs = 0 \/ 30 <= zlen vecs)%Z ->
  exists out, finalized_velocity (D := R) (F := R) (NF := RNum) idR vecs num = Ok out /\ averages_of vecs num out.
Proof.
  intros HN HL. unfold finalized_velocity. cbv zeta.
  destruct (avg_loop v1 vecs num (zlen vecs) (fun i out =>
    bind (get vecs i) (fun vec => bind (quot (zlen vecs) 30) (fun q => bind (rem i q) (fun r =>
    bind (if (r =? 0)%Z then get num i else Ok 0%Z) (fun _ => bind (get num i) (fun c =>
    if (c =? 0)%Z then Ok out else
    bind (set (v0 out) i (v0 vec / IZR c)) (fun xs => bind (set (v1 out) i (v1 vec / IZR c)) (fun ys =>
    bind (set (v2 out) i (v2 vec / IZR c)) (fun zs => Ok (V3 xs ys zs)))))))))) eq_refl) as (o & E & K).
  - intros i out Hi. unfold avg_body. rewrite (get_zn vz vecs) by lia. cbn [bind].
    unfold quot. replace (30 =? 0)%Z with false by reflexivity. cbn [bind].
    assert (0 < Z.quot (zlen vecs) 30)%Z by (apply Z.quot_str_pos; lia).
    unfold rem. replace (Z.quot (zlen vecs) 30 =? 0)%Z with false by lia. cbn [bind].
    rewrite (get_zn 0%Z num) by lia.
    destruct (Z.rem i (Z.quot (zlen vecs) 30) =? 0)%Z; reflexivity.
  - exists o. split; [exact E|]. unfold averages_of. destruct K as (A & B & C & K). auto.
Qed.

Theorem curl_averages vecs num : zlen num = zlen vecs ->
  exists out, curl_fields (D := R) (F := R) (NF := RNum) idR vecs num = Ok out /\ averages_of vecs num out.
Proof.
  intros HN. unfold curl_fields. cbv zeta.
  destruct (avg_loop v1 vecs num (zlen vecs) (fun i out =>
    bind (get vecs i) (fun vec => bind (get num i) (fun c =>
    if (c =? 0)%Z then Ok out else
    bind (set (v0 out) i (v0 vec / IZR c)) (fun xs => bind (set (v1 out) i (v1 vec / IZR c)) (fun ys =>
    bind (set (v2 out) i (v2 vec / IZR c)) (fun zs => Ok (V3 xs ys zs))))))) eq_refl) as (o & E & K).
  - intros i out Hi. unfold avg_body. rewrite (get_zn vz vecs), (get_zn 0%Z num) by lia. reflexivity.
  - exists o. split; [exact E|]. unfold averages_of. destruct K as (A & B & C & K). auto.
Qed.

(** The divergence takes the x component for y. *)
Theorem divergence_averages vecs num : zlen num = zlen vecs ->
  exists out, divergence_fields (D := R) (F := R) (NF := RNum) idR vecs num = Ok out /\
    averages_of (map (fun v => V3 (v0 v) (v0 v) (v2 v)) vecs) num out.
Proof.
  intros HN. unfold divergence_fields. cbv zeta.
  destruct (avg_loop v0 vecs num (zlen vecs) (fun i out =>
    bind (get vecs i) (fun vec => bind (get num i) (fun c =>
    if (c =? 0)%Z then Ok out else
    bind (set (v0 out) i (v0 vec / IZR c)) (fun xs => bind (set (v1 out) i (v0 vec / IZR c)) (fun ys =>
    bind (set (v2 out) i (v2 vec / IZR c)) (fun zs => Ok (V3 xs ys zs))))))) eq_refl) as (o & E & K).
  - intros i out Hi. unfold avg_body. rewrite (get_zn vz vecs), (get_zn 0%Z num) by lia. reflexivity.
  - exists o. split; [exact E|]. unfold averages_of. destruct K as (A & B & C & K).
    assert (EL : zlen (map (fun v => V3 (v0 v) (v0 v) (v2 v)) vecs) = zlen vecs) by (unfold zlen; now rewrite map_length).
    rewrite EL. split; [auto|]. split; [auto|]. split; [auto|]. intros i Hi. specialize (K i Hi). cbn zeta in K |- *. unfold zn in K.
    change vz with ((fun v : vec3 R => V3 (v0 v) (v0 v) (v2 v)) vz) at 1 2 3. rewrite map_nth. cbn [v0 v1 v2]. exact K.
Qed.

(** A field v = (0, y, 0) has divergence 1, the code finds 0. *)
Lemma divergence_bad :
  (r <- finalized_divergence to_f32 cube5 y_flow (repeat 1%Z 125) ;; a <- get r 62 ;; Ok (neqb a (nofZ 0), neqb a (nofZ 1)))%res
  = Ok (true, false).
Proof. vm_compute. reflexivity. Qed.

(** ** Floor *)
Lemma int_floor_zero : int_floor (NF := RNum) 0 = (-1)%Z.
Proof.
  unfold int_floor. cbn [nltb ntrunc nsub nofZ RNum]. destruct (Rlt_bool_spec 0 0); [lra|].
  replace (0 - IZR 1) with (IZR (-1)) by (simpl; lra). apply Ztrunc_IZR.
Qed.
Lemma int_floor_int k : (k <= 0)%Z -> int_floor (NF := RNum) (IZR k) = (k - 1)%Z.
Proof.
  intros H. unfold int_floor. cbn [nltb ntrunc nsub nofZ RNum]. destruct (Rlt_bool_spec 0 (IZR k)) as [K|K].
  - apply lt_IZR in K. lia.
  - rewrite <- minus_IZR. apply Ztrunc_IZR.
Qed.

Lemma int_floor_float32 :
  let x : f32 := (nofZ (- (2 ^ 24 - 1)) / nofZ (2 ^ 24))%num in
  nfloor x = (-1)%Z /\ int_floor x = (-2)%Z.
Proof. vm_compute. split; reflexivity. Qed.

(** ** Cells of a box *)
Theorem box_cells_ok cw o w : 0 < cw -> 0 <= w ->
  let '(first, n) := box_cells1 (ND := RNum) cw o w in
  (1 <= n)%Z /\
  (forall x, o <= x <= o + w -> exists k, (first <= k < first + n)%Z /\ IZR k * cw <= x < IZR (k + 1) * cw) /\
  (IZR first * cw <= o < IZR (first + 1) * cw) /\
  (IZR (first + n - 1) * cw <= o + w < IZR (first + n) * cw) /\
  (forall cells, w <= IZR (cells - 1) * cw -> (n <= cells)%Z).
Proof.
  intros Hc Hw. unfold box_cells1. cbn [nfloor ndiv nadd RNum].
  set (f := Zfloor (o / cw)). set (l := Zfloor ((w + o) / cw)).
  assert (F : forall x, IZR (Zfloor (x / cw)) * cw <= x < IZR (Zfloor (x / cw) + 1) * cw).
  { intros x. pose proof (Zfloor_lb (x / cw)) as A. pose proof (Zfloor_ub (x / cw)) as B.
    assert (E : x = x / cw * cw) by (field; lra). rewrite plus_IZR. split.
    - rewrite E at 2. apply Rmult_le_compat_r; lra.
    - rewrite E at 1. apply Rmult_lt_compat_r; lra. }
  assert (M : forall x y, x <= y -> (Zfloor (x / cw) <= Zfloor (y / cw))%Z).
  { intros x y H. apply Zfloor_le. unfold Rdiv. apply Rmult_le_compat_r; [|auto]. apply Rlt_le, Rinv_0_lt_compat; auto. }
  pose proof (M o (w + o) ltac:(lra)) as Hfl. fold f l in Hfl.
  split; [lia|]. split.
  { intros x Hx. exists (Zfloor (x / cw)). split; [|apply F].
    pose proof (M o x ltac:(lra)). pose proof (M x (w + o) ltac:(lra)). fold f l in H, H0. lia. }
  split; [apply F|]. split.
  { replace (f + (1 + l - f) - 1)%Z with l by lia. replace (f + (1 + l - f))%Z with (l + 1)%Z by lia. rewrite Rplus_comm. apply F. }
  intros cells HC. cut (l < f + cells)%Z; [lia|]. apply lt_IZR.
  pose proof (F (w + o)) as [K _]. pose proof (F o) as [_ K']. fold f in K'. fold l in K.
  assert (HH : IZR l * cw < IZR (f + cells) * cw).
  { replace (f + cells)%Z with ((f + 1) + (cells - 1))%Z by lia. rewrite plus_IZR, Rmult_plus_distr_r. lra. }
  apply Rmult_lt_reg_r in HH; auto.
Qed.

Lemma box_cells_bad : box_cells1 (ND := F64Num) (nofZ 100 / nofZ 10)%num (nofZ 0) (nofZ 100) = (0, 11)%Z.
Proof. vm_compute. reflexivity. Qed.
Theorem box_cells_whole bw cells : 0 < bw -> (0 < cells)%Z ->
  box_cells1 (ND := RNum) (bw / IZR cells) 0 bw = (0, cells + 1)%Z.
Proof.
  intros Hb Hc. unfold box_cells1. cbn [nfloor ndiv nadd RNum]. assert (0 < IZR cells) by (apply IZR_lt; lia).
  replace (0 / (bw / IZR cells)) with 0 by (field; lra). replace ((bw + 0) / (bw / IZR cells)) with (IZR cells) by (field; lra).
  change 0 with (IZR 0). rewrite !Zfloor_IZR. f_equal. lia.
Qed.

(** ** Velocity images *)
Theorem velocity_image w num0 vec0 xs vs : valid_overlap w -> (30 <= buffer_size w)%Z ->
  vec0 = repeat zero3 (Z.to_nat (buffer_size w)) -> num0 = repeat 0%Z (Z.to_nat (buffer_size w)) ->
  Forall (placeable w) xs -> zlen vs = zlen xs -> depth w <> 0%Z ->
  exists vecs num out,
    interpolate (D := R) (F := R) (ND := RNum) (NF := RNum) w (Vector vec0 num0) xs 1 (WVector vs) 0 (zlen xs) 1 = Ok (Vector vecs num) /\
    finalized_velocity (D := R) (F := R) (NF := RNum) idR vecs num = Ok out /\
    forall j, (0 <= j < buffer_size w)%Z ->
      let count := sum 0 (zlen xs) (fun i => if lands w (nth (Z.to_nat i) xs zero3) j then 1 else 0) in
      let mean f := sum 0 (zlen xs) (fun i => if lands w (nth (Z.to_nat i) xs zero3) j then f (nth (Z.to_nat i) vs zero3) else 0) / count in
      let pixel f := if Req_EM_T count 0 then 0 else mean f / IZR (depth w) in
      nth (Z.to_nat j) (v0 out) 0 = pixel v0 /\ nth (Z.to_nat j) (v1 out) 0 = pixel v1 /\ nth (Z.to_nat j) (v2 out) 0 = pixel v2.
Proof.
  intros HV H30 -> -> HP HLv HD.
  assert (HS : sized (Vector (repeat zero3 (Z.to_nat (buffer_size w))) (repeat 0%Z (Z.to_nat (buffer_size w)))) (buffer_size w)).
  { cbn. unfold zlen. rewrite !repeat_length. lia. }
  destruct (interpolate_ok w _ xs 1 (WVector vs) HV HS HLv HP) as (b' & E & HS' & HI & HC & _).
  destruct b' as [|vecs num]; [discriminate|]. destruct HS' as [L1 L2].
  destruct (velocity_averages vecs num) as (out & EO & A0 & A1 & A2 & A); [lia|lia|].
  exists vecs, num, out. split; [exact E|]. split; [exact EO|]. intros j Hj.
  assert (HPV : point_value w 1 = 1 / IZR (depth w)).
  { unfold point_value, depth. destruct (image_axes (oproj w)) as [[? ?] ?]. destruct (okd w); auto; field. }
  assert (HDR : IZR (depth w) <> 0) by (apply not_0_IZR; auto).
  pose proof (HC Number j Hj) as CN. pose proof (HC VelX j Hj) as CX. pose proof (HC VelY j Hj) as CY. pose proof (HC VelZ j Hj) as CZ.
  cbn [comp amount] in CN, CX, CY, CZ.
  rewrite nth_repeat in CN, CX, CY, CZ. cbn [v0 v1 v2 zero3] in CX, CY, CZ. rewrite Rplus_0_l in CN, CX, CY, CZ.
  cbv zeta. rewrite <- CN.
  assert (SC : forall f : vec3 R -> R, sum 0 (zlen xs) (fun i => if lands w (nth (Z.to_nat i) xs zero3) j then point_value w 1 * f (nth (Z.to_nat i) vs zero3) else 0) =
     sum 0 (zlen xs) (fun i => if lands w (nth (Z.to_nat i) xs zero3) j then f (nth (Z.to_nat i) vs zero3) else 0) / IZR (depth w)).
  { intros f. unfold Rdiv. rewrite <- sum_scal_r. apply sum_ext. intros i Hi. destruct (lands _ _ _); [rewrite HPV; field; auto|lra]. }
  rewrite (SC v0) in CX. rewrite (SC v1) in CY. rewrite (SC v2) in CZ.
  destruct (A j ltac:(lia)) as (P0 & P1 & P2). change (V3 0 0 0) with zero3 in P0, P1, P2.
  rewrite P0, P1, P2, CX, CY, CZ. unfold average.
  destruct (Req_EM_T (IZR (nth (Z.to_nat j) num 0%Z)) 0) as [Q|Q].
  - apply eq_IZR in Q. rewrite Q. cbn [Z.eqb]. auto.
  - destruct (Z.eqb_spec (nth (Z.to_nat j) num 0%Z) 0) as [Q'|Q']; [rewrite Q' in Q; lra|].
    repeat split; field; auto.
Qed.

(** One point with velocity 4 in a projection of depth 2 gives a pixel of 2. *)
Lemma velocity_image_bad :
  (b <- interpolate (D := f64) (F := f32) proj_bad (Vector (repeat (V3 (nofZ 0) (nofZ 0) (nofZ 0)) 36) (repeat 0%Z 36))
     [V3 half32 half32 half32] (nofZ 1) (WVector [four]) 0 1 1 ;;
   match b with
   | Vector vecs num => out <- finalized_velocity to_f32 vecs num ;; a <- get (v0 out) 0 ;; Ok (neqb a (nofZ 2), neqb a (nofZ 4))
   | _ => Panic
   end)%res = Ok (true, false).
Proof. vm_compute. reflexivity. Qed.

(** ** Workers and Add *)
Theorem schedule_thm w n (prog : nat -> list (contents R -> contents R)) (b0 : nat -> contents R) g0 :
  let good b := is_scalar b = is_scalar g0 /\ sized b (volume (image_width w (bufCb w))) in
  let D := image_width w (domCb w) in
  let add := overlap_add (ND := RNum) w in
  let result i := fold_left (fun b u => u b) (prog i) (b0 i) in
  mergeable w -> (1 <= n)%nat -> sized g0 (volume D) ->
  (forall i, good (b0 i)) -> (forall i u b, In u (prog i) -> good b -> good (u b)) ->
  (forall s, preach _ _ add n prog b0 g0 s -> pfinal _ _ n s ->
     sized (grd s) (volume D) /\
     forall q c, in_grid D c -> comp q (grd s) (cell_index D c) =
       comp q g0 (cell_index D c) + sum 0 (Z.of_nat n) (fun i => contribution w q (result (Z.to_nat i)) c)) /\
  (forall s, preach _ _ add n prog b0 g0 s -> ~ pfinal _ _ n s -> exists s', pstep _ _ add n prog s s') /\
  (forall ex, ex O = pinit _ _ b0 g0 -> ~ (forall k, pstep _ _ add n prog (ex k) (ex (Datatypes.S k)))).
Proof.
  intros good D add result HM Hn HG Hb Hp.
  set (okG := fun g : contents R => is_scalar g = is_scalar g0 /\ sized g (volume D)).
  assert (Hadd : forall b g, good b -> okG g -> exists g', add b g = Ok g' /\ okG g').
  { intros b g [B1 B2] [G1 G2]. destruct (add_ok w b g HM) as (g' & E1 & E2 & E3 & _); [congruence|auto|auto|].
    exists g'. split; [auto|]. split; [congruence|auto]. }
  split; [|split].
  - intros s HR HF. destruct (reach_final _ _ add n prog b0 g0 Hn s HR HF) as (order & HPm & HE).
    destruct (add_each_ok w (map result order) g0 HM) as (g' & K1 & K2 & K3 & K4); [|auto|].
    { apply Forall_forall. intros b Hb'. apply in_map_iff in Hb'. destruct Hb' as (i & <- & _).
      apply (ok_run _ prog b0 good Hb Hp i). }
    assert (g' = grd s).
    { apply (f_equal (fun r => match r with Ok g => g | _ => g' end)) in HE. rewrite <- HE. unfold result, add in *. rewrite K1. reflexivity. }
    subst g'. split; [auto|]. intros q c Hc. rewrite K4 by auto. f_equal.
    rewrite map_map, (rsum_perm _ (map (fun i => contribution w q (result i) c) (seq 0 n))); [|apply Permutation_map; auto].
    apply (rsum_seq (fun i => contribution w q (result i) c)).
  - intros s HR HF. eapply (reach_progress _ _ add n prog b0 g0 Hn good okG); auto. split; auto.
  - intros ex H0. eapply (reach_finite _ _ add n prog b0 g0 Hn good okG); auto. split; auto.
Qed.
