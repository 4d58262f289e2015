(** Copying the lattice into segments. *)
From Coq Require Import String ZArith List Bool Lia ZifyBool ZifyNat.
From Verif Require Import Base.Res Base.ResFacts Base.Num Model.Geom Model.Main Spec.Work Spec.Segments.
Import ListNotations.
Open Scope Z_scope.

Lemma zseq_snoc k : 0 <= k -> zseq (k + 1) = zseq k ++ [k].
Proof.
  intros H. unfold zseq. replace (Z.to_nat (k + 1)) with (S (Z.to_nat k)) by lia.
  rewrite seq_S, map_app. cbn. f_equal. f_equal. lia.
Qed.
Lemma zlen_zseq k : 0 <= k -> zlen (zseq k) = k.
Proof. intros H. unfold zseq, zlen. rewrite map_length, seq_length. lia. Qed.
Lemma zn_zseq d k i : 0 <= i < k -> zn d (zseq k) i = i.
Proof.
  intros H. unfold zn, zseq. rewrite (nth_indep _ d (Z.of_nat 0)) by (rewrite map_length, seq_length; lia).
  rewrite map_nth, seq_nth by lia. lia.
Qed.
Lemma zn_map {A B} (f : A -> B) d d' l i : 0 <= i < zlen l -> zn d' (map f l) i = f (zn d l i).
Proof.
  intros H. unfold zn, zlen in *. rewrite (nth_indep _ d' (f d)) by (rewrite map_length; lia). apply map_nth.
Qed.
Lemma zlen_map {A B} (f : A -> B) l : zlen (map f l) = zlen l.
Proof. unfold zlen. now rewrite map_length. Qed.
Lemma zlen_repeat {A} (a : A) n : zlen (repeat a n) = Z.of_nat n.
Proof. unfold zlen. now rewrite repeat_length. Qed.

Lemma for3_inv {S} (P : Z -> S -> Prop) (body : Z -> Z -> Z -> S -> res S) x0 y0 z0 n s : 0 <= n ->
  P 0 s ->
  (forall a b c s, 0 <= a < n -> 0 <= b < n -> 0 <= c < n -> P (cube_index n a b c) s ->
     wp (body (z0 + c) (y0 + b) (x0 + a) s) (P (cube_index n a b c + 1))) ->
  wp (for_ z0 (z0 + n) (fun z s => for_ y0 (y0 + n) (fun y s => for_ x0 (x0 + n) (fun x s => body z y x s) s) s) s) (P (n * n * n)).
Proof.
  intros Hn H0 HB. unfold cube_index in HB.
  assert (K : wp (for_ z0 (z0 + n) (fun z s => for_ y0 (y0 + n) (fun y s => for_ x0 (x0 + n) (fun x s => body z y x s) s) s) s)
    (fun s => P (n * n * (z0 + n - z0)) s)).
  { apply (for_inv (fun z s => P (n * n * (z - z0)) s)); [lia|replace (n * n * (z0 - z0)) with 0 by lia; exact H0|].
    intros z s1 Hz H1.
    assert (K2 : wp (for_ y0 (y0 + n) (fun y s => for_ x0 (x0 + n) (fun x s => body z y x s) s) s1)
      (fun s => P (n * (y0 + n - y0) + n * n * (z - z0)) s)).
    { apply (for_inv (fun y s => P (n * (y - y0) + n * n * (z - z0)) s)); [lia|replace (n * (y0 - y0) + n * n * (z - z0)) with (n * n * (z - z0)) by lia; exact H1|].
      intros y s2 Hy H2.
      assert (K3 : wp (for_ x0 (x0 + n) (fun x s => body z y x s) s2) (fun s => P ((x0 + n - x0) + n * (y - y0) + n * n * (z - z0)) s)).
      { apply (for_inv (fun x s => P ((x - x0) + n * (y - y0) + n * n * (z - z0)) s)); [lia|replace (x0 - x0 + n * (y - y0) + n * n * (z - z0)) with (n * (y - y0) + n * n * (z - z0)) by lia; exact H2|].
        intros x s3 Hx H3.
        pose proof (HB (x - x0) (y - y0) (z - z0) s3 ltac:(lia) ltac:(lia) ltac:(lia) H3) as HH.
        replace (z0 + (z - z0)) with z in HH by lia. replace (y0 + (y - y0)) with y in HH by lia. replace (x0 + (x - x0)) with x in HH by lia.
        replace (x + 1 - x0 + n * (y - y0) + n * n * (z - z0)) with (x - x0 + n * (y - y0) + n * n * (z - z0) + 1) by lia. exact HH. }
      eapply wp_mono; [exact K3|]. cbv beta. intros s4 H4.
      replace (n * (y + 1 - y0) + n * n * (z - z0)) with (x0 + n - x0 + n * (y - y0) + n * n * (z - z0)) by lia. exact H4. }
    eapply wp_mono; [exact K2|]. cbv beta. intros s4 H4.
    replace (n * n * (z + 1 - z0)) with (n * (y0 + n - y0) + n * n * (z - z0)) by lia. exact H4. }
  eapply wp_mono; [exact K|]. cbv beta. intros s4 H4. replace (n * n * n) with (n * n * (z0 + n - z0)) by lia. exact H4.
Qed.

Lemma cube_index_range n a b c : 0 <= a < n -> 0 <= b < n -> 0 <= c < n -> 0 <= cube_index n a b c < n * n * n.
Proof. unfold cube_index. intros. nia. Qed.
Lemma cube_index_decode n a b c : 0 <= a < n -> 0 <= b < n -> 0 <= c ->
  cube_index n a b c mod n = a /\ (cube_index n a b c / n) mod n = b /\ cube_index n a b c / (n * n) = c.
Proof.
  intros Ha Hb Hc. unfold cube_index.
  assert (E1 : (a + n * b + n * n * c) / n = b + n * c).
  { symmetry. apply (Z.div_unique _ _ _ a); [lia|ring]. }
  split; [|split].
  - symmetry. apply (Z.mod_unique _ _ (b + n * c)); [lia|ring].
  - rewrite E1. symmetry. apply (Z.mod_unique _ _ c); [lia|ring].
  - symmetry. apply (Z.div_unique _ _ _ (a + n * b)); [nia|ring].
Qed.

Section Seg.
Context {F : Type} {NF : Num F} (d : vec3 F).

(** Where entry [j] of segment (x, y, z) comes from. *)
Definition source (n s x y z j : Z) : Z :=
  periodic_index n (s * x + j mod (s + 1)) (s * y + (j / (s + 1)) mod (s + 1)) (s * z + j / ((s + 1) * (s + 1))).

Definition box_of (w : F) (p0 : vec3 F) (l : list (vec3 F)) : bounding_box F := fold_left (bb_add w) l (bb_init p0).
Definition vel_of (v0 : vec3 F) (l : list (vec3 F)) : vec3 F * vec3 F := fold_left v_bounds l (v0, v0).

Theorem copy_ok n s cells x y z w xs vs xsSeg vsSeg : 0 < cells -> 0 < s -> cells * s <= n ->
  0 <= x < cells -> 0 <= y < cells -> 0 <= z < cells ->
  zlen xs = n * n * n -> zlen vs = n * n * n ->
  zlen xsSeg = (s + 1) * (s + 1) * (s + 1) -> zlen vsSeg = (s + 1) * (s + 1) * (s + 1) ->
  let lx := map (fun j => zn d xs (source n s x y z j)) (zseq ((s + 1) * (s + 1) * (s + 1))) in
  let lv := map (fun j => zn d vs (source n s x y z j)) (zseq ((s + 1) * (s + 1) * (s + 1))) in
  let box := box_of w (zn d xs (periodic_index n (s * x) (s * y) (s * z))) lx in
  let vm := vel_of (zn d vs 0) lv in
  copy_to_segment n s (s + 1) cells (cube_index cells x y z) w xs vs xsSeg vsSeg =
  Ok (Seg lx lv (vec_mod (vec_add (bb_center box) (bb_min box)) w) (vec_scale (bb_max box) (#2)%num) (fst vm) (vmap2 nsub (snd vm) (fst vm))).
Proof.
  intros Hc Hs Hn Hx Hy Hz LX LV LXS LVS lx lv box vm.
  unfold copy_to_segment, rem, quot.
  destruct (cube_index_decode cells x y z) as (D1 & D2 & D3); try lia.
  pose proof (cube_index_range cells x y z Hx Hy Hz) as HR.
  assert (HD : 0 <= cube_index cells x y z / cells) by (apply Z.div_pos; lia).
  replace (cells =? 0) with false by lia. replace (cells * cells =? 0) with false by nia.
  rewrite (Z.rem_mod_nonneg (cube_index cells x y z)), (Z.quot_div_nonneg _ cells), (Z.quot_div_nonneg _ (cells * cells)), D1, D3 by nia.
  cbn [bind]. rewrite Z.rem_mod_nonneg, D2 by lia. cbv zeta. clear D1 D2 D3 HR HD.
  assert (Bx : 0 <= s * x /\ s * x + s <= n) by nia. assert (By : 0 <= s * y /\ s * y + s <= n) by nia. assert (Bz : 0 <= s * z /\ s * z + s <= n) by nia.
  assert (P0 : s * x + n * (s * y) + n * n * (s * z) = periodic_index n (s * x) (s * y) (s * z)).
  { unfold periodic_index. rewrite !Z.mod_small by lia. reflexivity. }
  assert (PR : forall a b c, 0 <= periodic_index n a b c < n * n * n).
  { intros a b c. unfold periodic_index. assert (0 < n) by nia. apply (cube_index_range n); apply Z.mod_pos_bound; lia. }
  rewrite P0. rewrite (get_ok d xs) by (rewrite LX; apply PR). cbn [bind].
  rewrite (get_ok d vs) by (rewrite LV; nia). cbn [bind].
  set (g := s + 1) in *. set (K := g * g * g) in *.
  set (p0 := zn d xs (periodic_index n (s * x) (s * y) (s * z))) in *.
  set (X := fun j => zn d xs (source n s x y z j)) in *. set (V := fun j => zn d vs (source n s x y z j)) in *.
  pose (I := fun k (st : seg_state F) => 0 <= k <= K /\ ss_idx st = k /\ zlen (ss_x st) = K /\ zlen (ss_v st) = K /\
    (forall j, 0 <= j < k -> zn d (ss_x st) j = X j) /\ (forall j, 0 <= j < k -> zn d (ss_v st) j = V j) /\
    ss_box st = box_of w p0 (map X (zseq k)) /\ ss_vm st = vel_of (zn d vs 0) (map V (zseq k))).
  match goal with |- bind ?L _ = _ => assert (W : wp L (I K)) end.
  { apply for3_inv.
    - lia.
    - unfold I. cbn [ss_idx ss_x ss_v ss_box ss_vm]. split; [unfold K; nia|]. split; [reflexivity|]. split; [exact LXS|]. split; [exact LVS|].
      split; [intros; lia|]. split; [intros; lia|]. split; reflexivity.
    - intros a b c st Ha Hb Hc' (I0 & I1 & I2 & I3 & I4 & I5 & I6 & I7).
      destruct (cube_index_decode g a b c Ha Hb (proj1 Hc')) as (E1 & E2 & E3).
      pose proof (cube_index_range g a b c Ha Hb Hc') as HK. fold K in HK.
      set (k := cube_index g a b c) in *.
      assert (WR : forall i0 i, 0 <= i0 -> i0 + s <= n -> 0 <= i < g -> (if i0 + i =? n then 0 else i0 + i) = (i0 + i) mod n).
      { clear - Hs Hc Hn g. assert (0 < n) by nia. clear Hn. intros i0 i H1 H2 H3. destruct (Z.eqb_spec (i0 + i) n) as [->|]; [symmetry; apply Z.mod_same; lia|symmetry; apply Z.mod_small; lia]. }
      rewrite !WR by lia.
      assert (ES : (s * x + a) mod n + (s * y + b) mod n * n + (s * z + c) mod n * (n * n) = source n s x y z k).
      { unfold source, periodic_index. fold g. rewrite E1, E2, E3. ring. }
      clear E1 E2 E3.
      rewrite ES. assert (SR : 0 <= source n s x y z k < n * n * n) by (unfold source; apply PR).
      rewrite (get_ok d xs) by (rewrite LX; exact SR). cbn [bind]. fold (X k).
      rewrite I1. rewrite set_ok by (rewrite I2; lia). cbn [bind].
      rewrite (get_ok d vs) by (rewrite LV; exact SR). cbn [bind]. fold (V k).
      rewrite set_ok by (rewrite I3; lia). cbn [bind].
      rewrite (get_ok d (upd _ _ _)) by (rewrite zlen_upd, I2; lia). cbn [bind wp].
      rewrite zn_upd_eq by (rewrite I2; lia). clear ES SR WR PR P0 Bx By Bz LX LV LXS LVS Hn.
      unfold I. cbn [ss_idx ss_x ss_v ss_box ss_vm]. rewrite !zlen_upd.
      split; [lia|]. split; [reflexivity|]. split; [exact I2|]. split; [exact I3|].
      split; [|split; [|split]].
      + intros j Hj. rewrite zn_upd by lia. destruct (Z.eqb_spec j k) as [->|]; [reflexivity|apply I4; lia].
      + intros j Hj. rewrite zn_upd by lia. destruct (Z.eqb_spec j k) as [->|]; [reflexivity|apply I5; lia].
      + rewrite zseq_snoc, map_app by lia. unfold box_of. rewrite fold_left_app, I6. reflexivity.
      + rewrite zseq_snoc, map_app by lia. unfold vel_of. rewrite fold_left_app, I7. reflexivity. }
  apply (proj1 (wp_ok _ _)) in W. destruct W as (st & -> & I0 & I1 & I2 & I3 & I4 & I5 & I6 & I7). cbn [bind].
  assert (KP : 0 <= K) by lia. clear PR P0 Bx By Bz LX LV LXS LVS Hn.
  assert (EX : ss_x st = lx).
  { apply (list_ext d); [unfold lx; rewrite zlen_map, zlen_zseq by lia; exact I2|]. intros i Hi. rewrite I4 by lia.
    unfold lx. rewrite (zn_map X 0 d) by (rewrite zlen_zseq by lia; lia). rewrite zn_zseq by lia. reflexivity. }
  assert (EV : ss_v st = lv).
  { apply (list_ext d); [unfold lv; rewrite zlen_map, zlen_zseq by lia; exact I3|]. intros i Hi. rewrite I5 by lia.
    unfold lv. rewrite (zn_map V 0 d) by (rewrite zlen_zseq by lia; lia). rewrite zn_zseq by lia. reflexivity. }
  rewrite EX, EV, I6, I7. fold lx lv box vm. destruct vm. reflexivity.
Qed.

Lemma source_holds n s x y z (all : list (vec3 F)) : 0 < s ->
  holds_cube d n s x y z all (map (fun j => zn d all (source n s x y z j)) (zseq ((s + 1) * (s + 1) * (s + 1)))).
Proof.
  intros Hs. split; [rewrite zlen_map, zlen_zseq by nia; reflexivity|]. intros a b c Ha Hb Hc.
  pose proof (cube_index_range (s + 1) a b c ltac:(lia) ltac:(lia) ltac:(lia)) as HR.
  rewrite (zn_map _ 0 d) by (rewrite zlen_zseq by lia; exact HR). rewrite zn_zseq by exact HR.
  unfold source. destruct (cube_index_decode (s + 1) a b c) as (E1 & E2 & E3); try lia. now rewrite E1, E2, E3.
Qed.

(** All segments. *)
Theorem write_grids_ok n s cells w xs vs : 0 < cells -> 0 < s -> cells * s <= n < cells * s + cells ->
  zlen xs = n * n * n -> zlen vs = n * n * n ->
  exists out, write_grids d n cells w xs vs = Ok out /\ zlen out = cells * cells * cells /\
    forall x y z, 0 <= x < cells -> 0 <= y < cells -> 0 <= z < cells ->
      exists sg, get out (cube_index cells x y z) = Ok (sheet_name x y z, sg) /\
        holds_cube d n s x y z xs (sg_x sg) /\ holds_cube d n s x y z vs (sg_v sg) /\
        let box := box_of w (zn d xs (periodic_index n (s * x) (s * y) (s * z))) (sg_x sg) in
        let vm := vel_of (zn d vs 0) (sg_v sg) in
        sg_origin sg = vec_mod (vec_add (bb_center box) (bb_min box)) w /\ sg_width sg = vec_scale (bb_max box) (#2)%num /\
        sg_vorigin sg = fst vm /\ sg_vwidth sg = vmap2 nsub (snd vm) (fst vm).
Proof.
  intros Hc Hs Hn LX LV. unfold write_grids, quot. replace (cells =? 0) with false by lia. cbn [bind].
  rewrite Z.quot_div_nonneg by lia. replace (n / cells) with s by (apply (Z.div_unique _ _ _ (n - cells * s)); lia). cbv zeta.
  set (K := (s + 1) * (s + 1) * (s + 1)). assert (0 <= K) by (unfold K; nia). replace (K <? 0) with false by lia.
  pose (good := fun k (e : string * segment F) => exists x y z, 0 <= x < cells /\ 0 <= y < cells /\ 0 <= z < cells /\ k = cube_index cells x y z /\
        fst e = sheet_name x y z /\
        let sg := snd e in holds_cube d n s x y z xs (sg_x sg) /\ holds_cube d n s x y z vs (sg_v sg) /\
        let box := box_of w (zn d xs (periodic_index n (s * x) (s * y) (s * z))) (sg_x sg) in
        let vm := vel_of (zn d vs 0) (sg_v sg) in
        sg_origin sg = vec_mod (vec_add (bb_center box) (bb_min box)) w /\ sg_width sg = vec_scale (bb_max box) (#2)%num /\
        sg_vorigin sg = fst vm /\ sg_vwidth sg = vmap2 nsub (snd vm) (fst vm)).
  pose (I := fun k (st : Z * list (vec3 F) * list (vec3 F) * list (string * segment F)) =>
    let '(idx, a, b, out) := st in idx = k /\ zlen a = K /\ zlen b = K /\ zlen out = k /\ forall j e, get out j = Ok e -> good j e).
  match goal with |- exists out, bind ?L _ = Ok out /\ _ => assert (W : wp L (I (cells * cells * cells))) end.
  { pose proof (for3_inv I (fun z y x '(idx, xsSeg, vsSeg, out) =>
      bind (copy_to_segment n s (s + 1) cells idx w xs vs xsSeg vsSeg) (fun sg => Ok (idx + 1, sg_x sg, sg_v sg, out ++ [(sheet_name x y z, sg)])))
      0 0 0 cells (0, repeat d (Z.to_nat K), repeat d (Z.to_nat K), []) ltac:(lia)) as FI.
    replace (0 + cells) with cells in FI by lia. apply FI; clear FI.
    - unfold I. rewrite zlen_repeat. repeat split; try lia. intros j e HG. apply get_inv in HG. unfold zlen in HG. cbn in HG. lia.
    - intros x y z [[[idx a] b] out] Hx Hy Hz (I1 & I2 & I3 & I4 & I5). subst idx. rewrite !Z.add_0_l.
      rewrite (copy_ok n s cells x y z w xs vs a b) by (auto; lia). cbn [bind wp]. unfold I. cbn [sg_x sg_v].
      rewrite !zlen_map, zlen_zseq, zlen_app by (fold K; lia).
      split; [lia|]. split; [reflexivity|]. split; [reflexivity|]. split; [rewrite I4; unfold zlen; cbn [length]; lia|].
      intros j e HG. pose proof (get_inv _ _ _ HG) as HJ. rewrite zlen_app in HJ. unfold zlen at 2 in HJ. cbn [length] in HJ.
      destruct (Z_lt_dec j (zlen out)).
      + apply I5. rewrite <- HG. unfold get. destruct (j <? 0); [reflexivity|]. unfold zlen in *. rewrite nth_error_app1 by lia. reflexivity.
      + assert (j = zlen out) by lia. subst j.
        assert (EE : get (out ++ [(sheet_name x y z, Seg (map (fun j => zn d xs (source n s x y z j)) (zseq K)) (map (fun j => zn d vs (source n s x y z j)) (zseq K))
           (vec_mod (vec_add (bb_center (box_of w (zn d xs (periodic_index n (s * x) (s * y) (s * z))) (map (fun j => zn d xs (source n s x y z j)) (zseq K)))) (bb_min (box_of w (zn d xs (periodic_index n (s * x) (s * y) (s * z))) (map (fun j => zn d xs (source n s x y z j)) (zseq K))))) w)
           (vec_scale (bb_max (box_of w (zn d xs (periodic_index n (s * x) (s * y) (s * z))) (map (fun j => zn d xs (source n s x y z j)) (zseq K)))) (#2)%num)
           (fst (vel_of (zn d vs 0) (map (fun j => zn d vs (source n s x y z j)) (zseq K))))
           (vmap2 nsub (snd (vel_of (zn d vs 0) (map (fun j => zn d vs (source n s x y z j)) (zseq K)))) (fst (vel_of (zn d vs 0) (map (fun j => zn d vs (source n s x y z j)) (zseq K))))))]) (zlen out) = Ok e) by exact HG.
        unfold get in EE. replace (zlen out <? 0) with false in EE by (pose proof (zlen_nonneg out); lia).
        unfold zlen in EE. rewrite Nat2Z.id, nth_error_app2, Nat.sub_diag in EE by lia. cbn [nth_error] in EE.
        match type of EE with Ok ?v = _ => assert (e = v) by congruence end. subst e.
        unfold good. exists x, y, z. cbn [fst snd sg_x sg_v sg_origin sg_width sg_vorigin sg_vwidth].
        split; [lia|]. split; [lia|]. split; [lia|]. split; [exact I4|]. split; [reflexivity|]. cbv zeta.
        split; [now apply source_holds|]. split; [now apply source_holds|]. repeat split; reflexivity. }
  apply (proj1 (wp_ok _ _)) in W. destruct W as ([[[idx a] b] out] & E & I1 & I2 & I3 & I4 & I5).
  exists out. split; [rewrite E; reflexivity|]. split; [exact I4|].
  intros x y z Hx Hy Hz. pose proof (cube_index_range cells x y z Hx Hy Hz) as HR.
  assert (HE : exists e, get out (cube_index cells x y z) = Ok e).
  { unfold get. replace (cube_index cells x y z <? 0) with false by lia.
    destruct (nth_error out (Z.to_nat (cube_index cells x y z))) eqn:EN; [eauto|]. apply nth_error_None in EN. unfold zlen in I4. lia. }
  destruct HE as ([nm sg] & HE). destruct (I5 _ _ HE) as (x' & y' & z' & Hx' & Hy' & Hz' & EQ & HG).
  destruct (cube_index_decode cells x y z) as (A1 & A2 & A3); try lia. destruct (cube_index_decode cells x' y' z') as (B1 & B2 & B3); try lia.
  rewrite EQ in A1, A2, A3. assert (x' = x) by congruence. assert (y' = y) by congruence. assert (z' = z) by congruence. subst x' y' z'.
  cbn [fst snd] in HG. destruct HG as (-> & HG). exists sg. split; [exact HE|exact HG].
Qed.

Lemma cubes_tile s cells p q r : 0 < s -> 0 <= p < cells * s -> 0 <= q < cells * s -> 0 <= r < cells * s ->
  exists! t, let '(x, y, z) := t in 0 <= x < cells /\ 0 <= y < cells /\ 0 <= z < cells /\ cube_in_segment s x y z p q r.
Proof.
  intros Hs Hp Hq Hr. exists (p / s, q / s, r / s). unfold cube_in_segment.
  assert (D : forall u, 0 <= u < cells * s -> 0 <= u / s < cells /\ s * (u / s) <= u < s * (u / s) + s).
  { intros u Hu. pose proof (Z.div_mod u s ltac:(lia)). pose proof (Z.mod_pos_bound u s ltac:(lia)).
    split; [|lia]. split; [apply Z.div_pos; lia|]. apply Z.div_lt_upper_bound; nia. }
  split.
  - destruct (D p Hp), (D q Hq), (D r Hr). tauto.
  - intros [[x y] z] (Hx & Hy & Hz & A & B & C).
    assert (U : forall u x, s * x <= u < s * x + s -> u / s = x).
    { intros u x0 H. symmetry. apply (Z.div_unique _ _ _ (u - s * x0)); lia. }
    rewrite (U p x), (U q y), (U r z); auto.
Qed.
End Seg.
