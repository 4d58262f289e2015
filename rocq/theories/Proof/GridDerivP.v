(** Derivatives on grids in exact arithmetic. *)
From Coq Require Import ZArith List Lia Lra Bool Reals.
From Coq Require Import ZifyBool ZifyNat.
From Verif Require Import Base.Res Base.ResFacts Base.Num Model.Geom Model.GridDeriv.
From Verif Require Import Spec.Geometry Spec.Fields Spec.FieldDefs Spec.Stencils Spec.Filtering Proof.InterpP Proof.MatP.
Import ListNotations.
Open Scope Z_scope.

(** Boolean goals over integer comparisons. *)
Ltac bdec := repeat match goal with
  | |- context [(?a <=? ?b)%Z] => destruct (Z.leb_spec a b)
  | |- context [(?a <? ?b)%Z] => destruct (Z.ltb_spec a b)
  | |- context [(?a =? ?b)%Z] => destruct (Z.eqb_spec a b)
  end; rewrite ?andb_false_r, ?andb_true_r, ?orb_false_r; cbn [andb orb negb];
  rewrite ?andb_false_r, ?andb_true_r, ?orb_false_r; try reflexivity; try lia; auto.

Definition cell_eqb (c d : cell) : bool :=
  let '(x, y, z) := c in let '(x', y', z') := d in (x =? x') && (y =? y') && (z =? z').

Lemma cell_eqb_spec c d : reflect (c = d) (cell_eqb c d).
Proof.
  destruct c as [[x y] z], d as [[x' y'] z']. unfold cell_eqb.
  destruct (Z.eqb_spec x x'), (Z.eqb_spec y y'), (Z.eqb_spec z z'); cbn [andb]; constructor; congruence.
Qed.

Lemma cell_index_range w c : in_grid w c -> 0 <= cell_index w c < volume w.
Proof.
  destruct w as [[a b] d], c as [[x y] z]. unfold in_grid, cell_index, volume. intros (HX & HY & HZ).
  assert (0 <= x + y * a < a * b) by nia. nia.
Qed.

Lemma cell_index_inj w c c' : in_grid w c -> in_grid w c' -> cell_index w c = cell_index w c' -> c = c'.
Proof.
  destruct w as [[a b] d], c as [[x y] z], c' as [[x' y'] z']. unfold in_grid, cell_index. intros (HX & HY & HZ) (HX' & HY' & HZ') E.
  assert (0 <= x + y * a < a * b) by nia. assert (0 <= x' + y' * a < a * b) by nia.
  assert (z = z') by nia. subst. assert (y = y') by nia. subst. assert (x = x') by lia. now subst.
Qed.

Section Touch.
Variables (w : cell) (op : deriv_op) (D : cell -> R).

(** Exactly the cells with [p] are updated, each once and with its value of D. *)
Definition touched (p : cell -> bool) (out out' : list R) : Prop :=
  zlen out' = zlen out /\
  forall c, in_grid w c -> at_cell w out' c = if p c then combine_op op (at_cell w out c) (D c) else at_cell w out c.

Lemma touched_ext p q out out' : (forall c, in_grid w c -> p c = q c) -> touched p out out' -> touched q out out'.
Proof. intros E [L T]. split; auto. intros c Hc. rewrite T by auto. now rewrite E. Qed.

Lemma touched_none out : touched (fun _ => false) out out.
Proof. split; auto. Qed.

Lemma touched_both p q a b c : (forall k, in_grid w k -> p k = true -> q k = true -> False) ->
  touched p a b -> touched q b c -> touched (fun k => p k || q k) a c.
Proof.
  intros X [L T] [L' T']. split; [lia|]. intros k Hk. rewrite T', T by auto. specialize (X k Hk).
  destruct (p k), (q k); cbn [orb]; auto. exfalso. apply X; auto.
Qed.

Lemma store_touched out c : zlen out = volume w -> in_grid w c ->
  wp (store op out (cell_index w c) (D c)) (touched (cell_eqb c) out).
Proof.
  intros L Hc. pose proof (cell_index_range w c Hc) as RG.
  assert (forall v, v = combine_op op (at_cell w out c) (D c) -> wp (set out (cell_index w c) v) (touched (cell_eqb c) out)) as G.
  { intros v Ev. rewrite set_ok by lia. cbn [wp]. split; [now rewrite zlen_upd|]. intros k Hk.
    pose proof (cell_index_range w k Hk). unfold at_cell in *.
    change (zn 0%R (upd out (Z.to_nat (cell_index w c)) v) (cell_index w k) =
      if cell_eqb c k then combine_op op (zn 0%R out (cell_index w k)) (D k) else zn 0%R out (cell_index w k)).
    rewrite zn_upd by lia. destruct (cell_eqb_spec c k) as [->|NE].
    - rewrite Z.eqb_refl. exact Ev.
    - destruct (Z.eqb_spec (cell_index w k) (cell_index w c)) as [E|]; auto. apply cell_index_inj in E; auto. congruence. }
  unfold store. destruct op; [..|now apply G]; rewrite (get_ok 0%R) by lia; cbn [bind]; apply G; reflexivity.
Qed.

Lemma loop_touched (k : cell -> Z) p lo hi body out : lo <= hi -> zlen out = volume w ->
  (forall i o, lo <= i < hi -> zlen o = volume w -> wp (body i o) (touched (fun c => (k c =? i) && p c) o)) ->
  wp (for_ lo hi body out) (touched (fun c => (lo <=? k c) && (k c <? hi) && p c) out).
Proof.
  intros H L B. apply (for_inv (fun i o => touched (fun c => (lo <=? k c) && (k c <? i) && p c) out o)); auto.
  - eapply touched_ext; [|apply touched_none]. intros c _. cbv beta. destruct (Z.leb_spec lo (k c)), (Z.ltb_spec (k c) lo); cbn [andb]; auto; lia.
  - intros i o Hi T. eapply wp_mono; [apply B; auto; destruct T; lia|]. intros o' T'.
    eapply touched_ext; [|eapply touched_both; [|exact T|exact T']].
    + intros c _. cbv beta. bdec.
    + intros c _. cbv beta. bdec.
Qed.

(** Three nested loops. *)
Lemma loops_touched (k1 k2 : cell -> Z) (mk : Z -> Z -> cell) p l1 h1 l2 h2 (f : Z -> Z -> res R) idx out :
  l1 <= h1 -> l2 <= h2 -> zlen out = volume w ->
  (forall i j, l1 <= i < h1 -> l2 <= j < h2 -> in_grid w (mk i j) /\ idx i j = cell_index w (mk i j) /\ f i j = Ok (D (mk i j))) ->
  (forall i j c, l1 <= i < h1 -> l2 <= j < h2 -> in_grid w c -> cell_eqb (mk i j) c = (k1 c =? i) && ((k2 c =? j) && p c)) ->
  wp (for_ l1 h1 (fun i out => for_ l2 h2 (fun j out => v <- f i j ;; store op out (idx i j) v) out) out)
    (touched (fun c => (l1 <=? k1 c) && (k1 c <? h1) && ((l2 <=? k2 c) && (k2 c <? h2) && p c)) out).
Proof.
  intros H1 H2 L HF HM. apply loop_touched; auto. intros i o Hi Lo.
  eapply wp_mono; [apply (loop_touched k2 (fun c => (k1 c =? i) && p c)); auto|].
  - intros j o' Hj Lo'. destruct (HF i j Hi Hj) as (G & -> & ->). cbn [bind].
    eapply wp_mono; [apply store_touched; auto|]. intros o''. apply touched_ext. intros c Hc. rewrite HM by auto. bdec.
  - intros o'. apply touched_ext. intros c Hc. bdec.
Qed.
End Touch.

(** The formula used at coordinate [a] of an axis with [n] cells: 0 for the
    interior, positive counted from the start, negative counted from the end. *)
Definition posn (h n a : Z) : Z := if a <? h then a + 1 else if n - h <=? a then a - n else 0.

Section Main.
Variables (o w : vec3 Z) (axis h : Z).
Hypothesis Hw : 0 < v0 w /\ 0 < v1 w /\ 0 < v2 w.
Hypothesis Hax : axis = 0 \/ axis = 1 \/ axis = 2.
Hypothesis Hh : 0 < h /\ 2 * h < vget w axis.
Let W := wcell w.
Let g := new_grid o w.
Let pos c := posn h (vget w axis) (axis_of axis c).

Lemma border_touched op D ord f out : ord / 2 = h -> zlen out = volume W ->
  (forall c, in_grid W c -> pos c <> 0 ->
     f (cell_index W c) (if axis =? 1 then v0 w else 1) (pos c) = Ok (D c)) ->
  wp (border (F := R) (NF := RNum) g axis ord (vset (V3 0 0 0) axis h) (vset w axis (vget w axis - h)) op f out)
    (touched W op D (fun c => negb (pos c =? 0)) out).
Proof.
  intros HO L HF. unfold border. rewrite HO.
  eapply wp_mono; [apply (loop_touched W op D pos (fun c => negb (pos c =? 0)))|]; [lia|auto| |].
  2:{ intros o'. apply touched_ext. intros c Hc.
      assert (0 <= axis_of axis c < vget w axis).
      { destruct c as [[x y] z]. unfold in_grid, W, wcell in Hc. unfold axis_of, vget. destruct Hax as [->|[->| ->]]; cbn [Z.eqb Pos.eqb]; lia. }
      unfold pos, posn. bdec. }
  intros i out' Hi L'. destruct (Z.eqb_spec i 0) as [->|Hi0].
  { cbn [wp]. eapply touched_ext; [|apply touched_none]. intros c Hc. cbv beta. bdec. }
  set (a := if 0 <? i then i - 1 else vget w axis + i).
  replace (if i >? 0 then i - 1 else vget (width (gcb g)) axis + i) with a
    by (unfold a; rewrite Z.gtb_ltb; reflexivity).
  assert (0 <= a < vget w axis) as Ra by (unfold a; destruct (Z.ltb_spec 0 i); lia).
  assert (posn h (vget w axis) a = i) as Pa by (unfold a; destruct (Z.ltb_spec 0 i); unfold posn; bdec).
  assert (forall t, 0 <= t < vget w axis -> posn h (vget w axis) t = i -> t = a) as Pi
    by (intros t Ht; unfold a; destruct (Z.ltb_spec 0 i); unfold posn; bdec).
  cbv zeta. change (glength g) with (v0 w). change (garea g) with (v0 w * v1 w).
  destruct Hax as [E|[E|E]]; unfold vset, vget in *; rewrite E in *; cbn [Z.eqb Pos.eqb v0 v1 v2] in *.
  - eapply wp_mono; [apply (loops_touched W op D (fun c => axis_of 2 c) (fun c => axis_of 1 c) (fun z y => (a, y, z)) (fun c => axis_of 0 c =? a)); auto; try lia|].
    + intros z y Hz Hy. assert (in_grid W (a, y, z)) as G by (unfold in_grid, W, wcell; lia).
      split; [auto|]. split; [reflexivity|]. specialize (HF _ G). unfold pos in HF. rewrite E in HF. cbn [Z.eqb axis_of] in HF.
      rewrite Pa in HF. apply HF; auto.
    + intros z y [[x' y'] z'] Hz Hy Hc. unfold cell_eqb, axis_of. cbn [Z.eqb Pos.eqb]. bdec.
    + intros o'. apply touched_ext. intros [[x' y'] z'] Hc. unfold in_grid, W, wcell in Hc. unfold pos. rewrite E. unfold axis_of.
      cbn [Z.eqb Pos.eqb]. specialize (Pi x' ltac:(lia)). bdec; try (exfalso; subst x'; lia).
  - eapply wp_mono; [apply (loops_touched W op D (fun c => axis_of 2 c) (fun c => axis_of 0 c) (fun z x => (x, a, z)) (fun c => axis_of 1 c =? a)); auto; try lia|].
    + intros z x Hz Hx. assert (in_grid W (x, a, z)) as G by (unfold in_grid, W, wcell; lia).
      split; [auto|]. split; [reflexivity|]. specialize (HF _ G). unfold pos in HF. rewrite E in HF. cbn [Z.eqb Pos.eqb axis_of] in HF.
      rewrite Pa in HF. apply HF; auto.
    + intros z x [[x' y'] z'] Hz Hy Hc. unfold cell_eqb, axis_of. cbn [Z.eqb Pos.eqb]. bdec.
    + intros o'. apply touched_ext. intros [[x' y'] z'] Hc. unfold in_grid, W, wcell in Hc. unfold pos. rewrite E. unfold axis_of.
      cbn [Z.eqb Pos.eqb]. specialize (Pi y' ltac:(lia)). bdec; try (exfalso; subst y'; lia).
  - eapply wp_mono; [apply (loops_touched W op D (fun c => axis_of 1 c) (fun c => axis_of 0 c) (fun y x => (x, y, a)) (fun c => axis_of 2 c =? a)); auto; try lia|].
    + intros y x Hy Hx. assert (in_grid W (x, y, a)) as G by (unfold in_grid, W, wcell; lia).
      split; [auto|]. split; [reflexivity|]. specialize (HF _ G). unfold pos in HF. rewrite E in HF. cbn [Z.eqb Pos.eqb axis_of] in HF.
      rewrite Pa in HF. apply HF; auto.
    + intros z x [[x' y'] z'] Hz Hy Hc. unfold cell_eqb, axis_of. cbn [Z.eqb Pos.eqb]. bdec.
    + intros o'. apply touched_ext. intros [[x' y'] z'] Hc. unfold in_grid, W, wcell in Hc. unfold pos. rewrite E. unfold axis_of.
      cbn [Z.eqb Pos.eqb]. specialize (Pi z' ltac:(lia)). bdec; try (exfalso; subst z'; lia).
Qed.

Lemma interior_touched op D (f : Z -> Z -> Z -> res R) out : zlen out = volume W ->
  (forall x y z, in_grid W (x, y, z) -> pos (x, y, z) = 0 -> f x y z = Ok (D (x, y, z))) ->
  let lb := vset (V3 0 0 0) axis h in let ub := vset w axis (vget w axis - h) in
  wp (for_ (v0 lb) (v0 ub) (fun x out => for_ (v1 lb) (v1 ub) (fun y out => for_ (v2 lb) (v2 ub) (fun z out =>
        v <- f x y z ;; store op out (x + y * v0 w + z * (v0 w * v1 w)) v) out) out) out)
    (touched W op D (fun c => pos c =? 0) out).
Proof.
  intros L HF lb ub.
  assert (v0 lb <= v0 ub /\ v1 lb <= v1 ub /\ v2 lb <= v2 ub /\ 0 <= v0 lb /\ 0 <= v1 lb /\ 0 <= v2 lb /\
    v0 ub <= v0 w /\ v1 ub <= v1 w /\ v2 ub <= v2 w) as B.
  { unfold lb, ub, vset, vget in *. destruct Hax as [E|[E|E]]; rewrite E in *; cbn [Z.eqb Pos.eqb v0 v1 v2] in *; lia. }
  assert (forall x y z, in_grid W (x, y, z) -> pos (x, y, z) =? 0 =
    ((v0 lb <=? x) && (x <? v0 ub) && ((v1 lb <=? y) && (y <? v1 ub) && ((v2 lb <=? z) && (z <? v2 ub))))) as P.
  { intros x y z Hc. unfold in_grid, W, wcell in Hc. unfold pos, posn, lb, ub, vset, vget, axis_of in *.
    destruct Hax as [E|[E|E]]; rewrite E in *; cbn [Z.eqb Pos.eqb v0 v1 v2] in *; bdec. }
  eapply wp_mono; [apply (loop_touched W op D (fun c => axis_of 0 c)
    (fun c => (v1 lb <=? axis_of 1 c) && (axis_of 1 c <? v1 ub) && ((v2 lb <=? axis_of 2 c) && (axis_of 2 c <? v2 ub) && true))); [lia|auto|]|].
  - intros x out' Hx L'. eapply wp_mono; [apply (loops_touched W op D (fun c => axis_of 1 c) (fun c => axis_of 2 c) (fun y z => (x, y, z)) (fun c => axis_of 0 c =? x)); auto; try lia|].
    + intros y z Hy Hz. assert (in_grid W (x, y, z)) as G by (unfold in_grid, W, wcell; lia).
      split; [auto|]. split; [reflexivity|]. apply HF; auto. apply Z.eqb_eq. rewrite P by auto. bdec.
    + intros y z [[x' y'] z'] Hz Hy Hc. unfold cell_eqb, axis_of. cbn [Z.eqb Pos.eqb]. bdec.
    + intros o'. apply touched_ext. intros [[x' y'] z'] Hc. bdec.
  - intros o'. apply touched_ext. intros [[x' y'] z'] Hc. rewrite P by auto. unfold axis_of. cbn [Z.eqb Pos.eqb]. now rewrite andb_true_r.
Qed.
End Main.

(** ** The formulas *)
Open Scope R_scope.
Lemma poly_pad3 (a : list R) : (zlen a <= 3)%Z -> exists p q r,
  (forall t, poly a t = poly [p; q; r] t) /\ (forall t, poly (dpoly a) t = poly (dpoly [p; q; r]) t).
Proof.
  intros H. destruct a as [|p [|q [|r [|]]]]; [exists 0, 0, 0|exists p, 0, 0|exists p, q, 0|exists p, q, r|rewrite !zlen_cons in H; pose proof (zlen_nonneg l); lia];
    split; intros t; unfold dpoly; cbn [tl dcoefs poly]; ring.
Qed.

Lemma poly_pad5 (a : list R) : (zlen a <= 5)%Z -> exists p q r s u,
  (forall t, poly a t = poly [p; q; r; s; u] t) /\ (forall t, poly (dpoly a) t = poly (dpoly [p; q; r; s; u]) t).
Proof.
  intros H. destruct a as [|p [|q [|r [|s [|u [|]]]]]]; [exists 0, 0, 0, 0, 0|exists p, 0, 0, 0, 0|exists p, q, 0, 0, 0|exists p, q, r, 0, 0|exists p, q, r, s, 0|exists p, q, r, s, u|
    rewrite !zlen_cons in H; pose proof (zlen_nonneg l); lia];
    split; intros t; unfold dpoly; cbn [tl dcoefs poly]; ring.
Qed.

Definition denom_of (ord : Z) (dx : R) : R := if (ord =? 2)%Z then dx * 2 else dx * 12.

Lemma central_exact ord h a i : ord = 2%Z \/ ord = 4%Z -> (zlen a <= ord + 1)%Z -> h <> 0 ->
  central ord h (fun k => poly a (IZR k * h)) i = poly (dpoly a) (IZR i * h).
Proof.
  intros [-> | ->] L Hh; unfold central; cbn [Z.eqb Pos.eqb]; cbv beta.
  - destruct (poly_pad3 a L) as (p & q & r & E0 & E). rewrite !E0, !E. unfold dpoly. cbn [tl dcoefs poly Z.add Pos.add Pos.succ].
    rewrite plus_IZR, minus_IZR. field. auto.
  - destruct (poly_pad5 a L) as (p & q & r & s & u & E0 & E). rewrite !E0, !E. unfold dpoly. cbn [tl dcoefs poly Z.add Pos.add Pos.succ].
    rewrite !plus_IZR, !minus_IZR. field. auto.
Qed.

Ltac ws := unfold weights; change (Z.to_nat 0) with 0%nat; change (Z.to_nat 1) with 1%nat; change (Z.to_nat 2) with 2%nat; change (Z.to_nat 3) with 3%nat; change (Z.to_nat 4) with 4%nat;
  cbn [Z.eqb Pos.eqb nth weighted].

Section Line.
Variables (vals : list R) (idx di n a : Z) (u : Z -> R) (dx : R).
Hypothesis Hu : forall t, (0 <= a + t < n)%Z -> get vals (idx + t * di) = Ok (u (a + t)%Z).

Lemma Hu' i t : i = (idx + t * di)%Z -> (0 <= a + t < n)%Z -> get vals i = Ok (u (a + t)%Z).
Proof. intros ->. apply Hu. Qed.

Lemma flat_ok ord : ord = 2%Z \/ ord = 4%Z -> (ord / 2 <= a < n - ord / 2)%Z ->
  flat (NF := RNum) ord vals (denom_of ord dx) idx di = Ok (central ord dx u a).
Proof.
  intros [-> | ->] Ha; unfold flat, central, denom_of; cbn [Z.eqb Pos.eqb]; [change (2 / 2)%Z with 1%Z in Ha|change (4 / 2)%Z with 2%Z in Ha].
  - rewrite (Hu' _ 1), (Hu' _ (-1)) by lia. cbn [bind]. rn. f_equal. rewrite (Rmult_comm 2). reflexivity.
  - rewrite (Hu' _ 2), (Hu' _ 1), (Hu' _ (-1)), (Hu' _ (-2)) by lia. cbn [bind]. rn. f_equal. rewrite (Rmult_comm 12). unfold Rdiv. f_equal.
    change (a + -1)%Z with (a - 1)%Z. change (a + -2)%Z with (a - 2)%Z. ring.
Qed.

Lemma edge_ok ord pos : ord = 2%Z \/ ord = 4%Z -> (ord < n)%Z -> (0 <= a < n)%Z ->
  pos = posn (ord / 2) n a -> pos <> 0%Z ->
  exists v, edge (NF := RNum) ord vals (denom_of ord dx) idx di pos = Ok v /\
    forall p, dx <> 0 -> (zlen p <= ord + 1)%Z -> (forall k, (0 <= k < n)%Z -> u k = poly p (IZR k * dx)) -> v = poly (dpoly p) (IZR a * dx).
Proof.
  intros [-> | ->] Hn Ha EP NP; unfold edge, denom_of; cbn [Z.eqb Pos.eqb]; unfold posn in EP;
    [change (2 / 2)%Z with 1%Z in EP|change (4 / 2)%Z with 2%Z in EP].
  - destruct (Z.ltb_spec a 1); [|destruct (Z.leb_spec (n - 1) a); [|congruence]].
    + assert (pos = 1%Z) as -> by lia. cbn [Z.eqb Pos.eqb].
      rewrite (Hu' idx 0), (Hu' _ 1), (Hu' _ 2) by lia. cbn [bind]. eexists; split; [reflexivity|]. intros p Hx Lp E. rn.
      rewrite !E by lia. destruct (poly_pad3 p Lp) as (q & r & s & E0 & E'). rewrite !E0, !E'. unfold dpoly. cbn [tl dcoefs poly Z.add Pos.add Pos.succ].
      rewrite !plus_IZR. field. auto.
    + assert (pos = (-1)%Z) as -> by lia. cbn [Z.eqb Pos.eqb].
      rewrite (Hu' idx 0), (Hu' _ (-1)), (Hu' _ (-2)) by lia. cbn [bind]. eexists; split; [reflexivity|]. intros p Hx Lp E. rn.
      rewrite !E by lia. destruct (poly_pad3 p Lp) as (q & r & s & E0 & E'). rewrite !E0, !E'. unfold dpoly. cbn [tl dcoefs poly Z.add Pos.add Pos.succ].
      rewrite !plus_IZR. field. auto.
  - destruct (Z.ltb_spec a 2); [|destruct (Z.leb_spec (n - 2) a); [|congruence]].
    + assert (pos = 1 \/ pos = 2)%Z as [-> | ->] by lia; cbn [Z.eqb Pos.eqb].
      * rewrite (Hu' _ 4), (Hu' _ 3), (Hu' _ 2), (Hu' _ 1), (Hu' idx 0) by lia. cbn [bind]. eexists; split; [reflexivity|]. intros p Hx Lp E. rn.
        rewrite !E by lia. destruct (poly_pad5 p Lp) as (q & r & s & t & v & E0 & E'). rewrite !E0, !E'. unfold dpoly. cbn [tl dcoefs poly Z.add Pos.add Pos.succ].
        rewrite !plus_IZR. field. auto.
      * rewrite (Hu' _ (-1)), (Hu' idx 0), (Hu' _ 1), (Hu' _ 2), (Hu' _ 3) by lia. cbn [bind]. eexists; split; [reflexivity|]. intros p Hx Lp E. rn.
        rewrite !E by lia. destruct (poly_pad5 p Lp) as (q & r & s & t & v & E0 & E'). rewrite !E0, !E'. unfold dpoly. cbn [tl dcoefs poly Z.add Pos.add Pos.succ].
        rewrite !plus_IZR. field. auto.
    + assert (pos = -1 \/ pos = -2)%Z as [-> | ->] by lia; cbn [Z.eqb Pos.eqb].
      * rewrite (Hu' _ (-4)), (Hu' _ (-3)), (Hu' _ (-2)), (Hu' _ (-1)), (Hu' idx 0) by lia. cbn [bind]. eexists; split; [reflexivity|]. intros p Hx Lp E. rn.
        rewrite !E by lia. destruct (poly_pad5 p Lp) as (q & r & s & t & v & E0 & E'). rewrite !E0, !E'. unfold dpoly. cbn [tl dcoefs poly Z.add Pos.add Pos.succ].
        rewrite !plus_IZR. field. auto.
      * rewrite (Hu' _ 1), (Hu' idx 0), (Hu' _ (-1)), (Hu' _ (-2)), (Hu' _ (-3)) by lia. cbn [bind]. eexists; split; [reflexivity|]. intros p Hx Lp E. rn.
        rewrite !E by lia. destruct (poly_pad5 p Lp) as (q & r & s & t & v & E0 & E'). rewrite !E0, !E'. unfold dpoly. cbn [tl dcoefs poly Z.add Pos.add Pos.succ].
        rewrite !plus_IZR. field. auto.
Qed.

Lemma central_stencil ord i : ord = 2%Z \/ ord = 4%Z -> stencil ord dx u (i - ord / 2) (ord / 2) = central ord dx u i.
Proof using Type.
  clear Hu. intros [-> | ->]; unfold stencil, central, weights; [change (2 / 2)%Z with 1%Z; change (Z.to_nat 1) with 1%nat|change (4 / 2)%Z with 2%Z; change (Z.to_nat 2) with 2%nat]; cbn [Z.eqb Pos.eqb nth weighted].
  - replace (i - 1 + 1 + 1)%Z with (i + 1)%Z by lia. unfold Rdiv. f_equal. ring.
  - replace (i - 2 + 1 + 1 + 1 + 1)%Z with (i + 2)%Z by lia. replace (i - 2 + 1 + 1 + 1)%Z with (i + 1)%Z by lia. replace (i - 2 + 1)%Z with (i - 1)%Z by lia. unfold Rdiv. f_equal. ring.
Qed.

Lemma line_slope_inner ord : ord = 2%Z \/ ord = 4%Z -> (ord / 2 <= a < n - ord / 2)%Z -> line_slope ord dx n false u a = central ord dx u a.
Proof using Type.
  clear Hu. intros O Ha. unfold line_slope. rewrite <- central_stencil by auto. replace (window ord n a) with (a - ord / 2)%Z; [f_equal; lia|].
  unfold window. destruct O as [-> | ->]; [change (2 / 2)%Z with 1%Z in *|change (4 / 2)%Z with 2%Z in *]; lia.
Qed.

Lemma edge_slope ord pos : ord = 2%Z \/ ord = 4%Z -> (ord < n)%Z -> (0 <= a < n)%Z ->
  pos = posn (ord / 2) n a -> pos <> 0%Z ->
  edge (NF := RNum) ord vals (denom_of ord dx) idx di pos = Ok (line_slope ord dx n false u a).
Proof.
  intros O Hn Ha EP NP.
  assert (forall w x y z t, w = x -> y = z -> w / (y * t) = x / (t * z)) as FE.
  { intros w x y z t -> ->. now rewrite (Rmult_comm z). }
  assert (forall w x y z t, - w = x -> y = z -> w / - (y * t) = x / (t * z)) as FO.
  { intros w x y z t <- ->. unfold Rdiv. rewrite Rinv_opp, (Rmult_comm z). ring. }
  unfold line_slope, stencil, edge, denom_of.
  destruct O as [-> | ->]; cbn [Z.eqb Pos.eqb]; unfold posn in EP; unfold window;
    [change (2 / 2)%Z with 1%Z in *|change (4 / 2)%Z with 2%Z in *].
  - destruct (Z.ltb_spec a 1); [|destruct (Z.leb_spec (n - 1) a); [|congruence]].
    + assert (pos = 1%Z) as -> by lia. cbn [Z.eqb Pos.eqb]. replace (Z.max 0 (Z.min (a - 1) (n - 1 - 2)))%Z with 0%Z by lia.
      rewrite (Hu' idx 0), (Hu' _ 1), (Hu' _ 2) by lia. cbn [bind]. rn. f_equal. replace a with 0%Z by lia.
      change (0 - 0)%Z with 0%Z. ws. apply FE; [cbn [Z.add Pos.add Pos.succ Z.pos_sub Z.opp Pos.pred_double]; ring|auto].
    + assert (pos = (-1)%Z) as -> by lia. cbn [Z.eqb Pos.eqb]. replace (Z.max 0 (Z.min (a - 1) (n - 1 - 2)))%Z with (a - 2)%Z by lia.
      rewrite (Hu' idx 0), (Hu' _ (-1)), (Hu' _ (-2)) by lia. cbn [bind]. rn. f_equal. replace (a - (a - 2))%Z with 2%Z by lia.
      ws. replace (a - 2 + 1 + 1)%Z with (a + 0)%Z by lia. replace (a - 2 + 1)%Z with (a - 1)%Z by lia.
      apply FO; [change (a + -1)%Z with (a - 1)%Z; change (a + -2)%Z with (a - 2)%Z; ring|auto].
  - destruct (Z.ltb_spec a 2); [|destruct (Z.leb_spec (n - 2) a); [|congruence]].
    + replace (Z.max 0 (Z.min (a - 2) (n - 1 - 4)))%Z with 0%Z by lia.
      assert (pos = 1 \/ pos = 2)%Z as [-> | ->] by lia; cbn [Z.eqb Pos.eqb].
      * rewrite (Hu' _ 4), (Hu' _ 3), (Hu' _ 2), (Hu' _ 1), (Hu' idx 0) by lia. cbn [bind]. rn. f_equal. replace a with 0%Z by lia.
        change (0 - 0)%Z with 0%Z. ws. apply FE; [cbn [Z.add Pos.add Pos.succ Z.pos_sub Z.opp Pos.pred_double]; ring|auto].
      * rewrite (Hu' _ (-1)), (Hu' idx 0), (Hu' _ 1), (Hu' _ 2), (Hu' _ 3) by lia. cbn [bind]. rn. f_equal. replace a with 1%Z by lia.
        change (1 - 0)%Z with 1%Z. ws. apply FE; [cbn [Z.add Pos.add Pos.succ Z.pos_sub Z.opp Pos.pred_double]; ring|auto].
    + replace (Z.max 0 (Z.min (a - 2) (n - 1 - 4)))%Z with (n - 5)%Z by lia.
      assert (pos = -1 \/ pos = -2)%Z as [-> | ->] by lia; cbn [Z.eqb Pos.eqb].
      * rewrite (Hu' _ (-4)), (Hu' _ (-3)), (Hu' _ (-2)), (Hu' _ (-1)), (Hu' idx 0) by lia. cbn [bind]. rn. f_equal. replace (a - (n - 5))%Z with 4%Z by lia.
        ws. replace (n - 5 + 1 + 1 + 1 + 1)%Z with (a + 0)%Z by lia. replace (n - 5 + 1 + 1 + 1)%Z with (a + -1)%Z by lia.
        replace (n - 5 + 1 + 1)%Z with (a + -2)%Z by lia. replace (n - 5 + 1)%Z with (a + -3)%Z by lia. replace (n - 5)%Z with (a + -4)%Z by lia. apply FO; [ring|auto].
      * rewrite (Hu' _ 1), (Hu' idx 0), (Hu' _ (-1)), (Hu' _ (-2)), (Hu' _ (-3)) by lia. cbn [bind]. rn. f_equal. replace (a - (n - 5))%Z with 3%Z by lia.
        ws. replace (n - 5 + 1 + 1 + 1 + 1)%Z with (a + 1)%Z by lia. replace (n - 5 + 1 + 1 + 1)%Z with (a + 0)%Z by lia.
        replace (n - 5 + 1 + 1)%Z with (a + -1)%Z by lia. replace (n - 5 + 1)%Z with (a + -2)%Z by lia. replace (n - 5)%Z with (a + -3)%Z by lia. apply FO; [ring|auto].
Qed.

Lemma wrap_ok ord pos : ord = 2%Z \/ ord = 4%Z -> (ord < n)%Z -> (0 <= a < n)%Z ->
  pos = posn (ord / 2) n a -> pos <> 0%Z ->
  wrap (NF := RNum) ord vals (denom_of ord dx) idx di pos n = Ok (central ord dx (fun k => u (k mod n)%Z) a).
Proof.
  intros O Hn Ha EP NP.
  assert (forall k m, (-n <= k < n)%Z -> m = (if (a + k <? 0) then a + k + n else if (a + k <? n) then a + k else a + k - n)%Z -> ((a + k) mod n)%Z = m) as M.
  { intros k m Hk ->. destruct (Z.ltb_spec (a + k) 0); [symmetry; apply (Z.mod_unique _ _ (-1)); lia|].
    destruct (Z.ltb_spec (a + k) n); [apply Z.mod_small; lia|symmetry; apply (Z.mod_unique _ _ 1); lia]. }
  destruct O as [-> | ->]; unfold wrap, central, denom_of; cbn [Z.eqb Pos.eqb]; unfold posn in EP;
    [change (2 / 2)%Z with 1%Z in EP|change (4 / 2)%Z with 2%Z in EP].
  - destruct (Z.ltb_spec a 1); [|destruct (Z.leb_spec (n - 1) a); [|congruence]].
    + assert (pos = 1%Z) as -> by lia. cbn [Z.eqb Pos.eqb bind].
      rewrite (Hu' _ 1), (Hu' _ (n - 1)) by lia. cbn [bind]. rn. f_equal.
      change (a - 1)%Z with (a + -1)%Z. rewrite (M 1%Z (a + 1)%Z), (M (-1)%Z (a + (n - 1))%Z) by (try lia; bdec). rewrite (Rmult_comm 2). reflexivity.
    + assert (pos = (-1)%Z) as -> by lia. cbn [Z.eqb Pos.eqb bind].
      rewrite (Hu' _ (1 - n)), (Hu' _ (-1)) by lia. cbn [bind]. rn. f_equal.
      change (a - 1)%Z with (a + -1)%Z. rewrite (M 1%Z (a + (1 - n))%Z), (M (-1)%Z (a + -1)%Z) by (try lia; bdec). rewrite (Rmult_comm 2). reflexivity.
  - assert (forall w x y z w' x' y' z' : R, w = w' -> x = x' -> y = y' -> z = z' ->
      (- w + 8 * x + -8 * y + z) / (dx * 12) = (- w' + 8 * x' - 8 * y' + z') / (12 * dx)) as FE.
    { intros w x y z w' x' y' z' -> -> -> ->. rewrite (Rmult_comm 12). unfold Rdiv. f_equal. ring. }
    destruct (Z.ltb_spec a 2); [|destruct (Z.leb_spec (n - 2) a); [|congruence]].
    + assert (pos = 1 \/ pos = 2)%Z as [-> | ->] by lia; cbn [Z.eqb Pos.eqb bind].
      * rewrite (Hu' _ 2), (Hu' _ 1), (Hu' _ (n - 1)), (Hu' _ (n - 2)) by lia. cbn [bind]. rn. f_equal. apply FE; f_equal; symmetry; apply M; try lia; bdec.
      * rewrite (Hu' _ 2), (Hu' _ 1), (Hu' _ (-1)), (Hu' _ (n - 2)) by lia. cbn [bind]. rn. f_equal. apply FE; f_equal; symmetry; apply M; try lia; bdec.
    + assert (pos = -1 \/ pos = -2)%Z as [-> | ->] by lia; cbn [Z.eqb Pos.eqb bind].
      * rewrite (Hu' _ (2 - n)), (Hu' _ (1 - n)), (Hu' _ (-1)), (Hu' _ (-2)) by lia. cbn [bind]. rn. f_equal. apply FE; f_equal; symmetry; apply M; try lia; bdec.
      * rewrite (Hu' _ (2 - n)), (Hu' _ 1), (Hu' _ (-1)), (Hu' _ (-2)) by lia. cbn [bind]. rn. f_equal. apply FE; f_equal; symmetry; apply M; try lia; bdec.
Qed.
End Line.

(** ** The whole function *)
Definition valr {A} (d : A) (r : res A) : A := match r with Ok a => a | _ => d end.

Section Whole.
Variables (org w : vec3 Z) (axis : Z) (vals out : list R) (bw : R) (cells : Z) (opt : deriv_options).
Hypothesis Hw : (0 < v0 w /\ 0 < v1 w /\ 0 < v2 w)%Z.
Hypothesis Hax : (axis = 0 \/ axis = 1 \/ axis = 2)%Z.
Hypothesis Hord : (order opt = 2 \/ order opt = 4)%Z.
Hypothesis Hn : (order opt < vget w axis)%Z.
Let W := wcell w.
Hypothesis Lv : zlen vals = volume W.
Hypothesis Lo : zlen out = volume W.
Let n := vget w axis.
Let h := (order opt / 2)%Z.
Let dx := bw / IZR cells.
Let line c k := at_cell W vals (moved axis c k).
Let gd := grid_deriv (ND := RNum) (NF := RNum) (fun x : R => x) (new_grid_location org w bw cells) vals out axis opt.

Lemma axis_range c : in_grid W c -> (0 <= axis_of axis c < n)%Z.
Proof.
  destruct c as [[x y] z]. unfold in_grid, W, wcell, n, axis_of, vget. intros H. destruct Hax as [->|[->| ->]]; cbn [Z.eqb Pos.eqb]; lia.
Qed.

Lemma moved_grid c k : in_grid W c -> (0 <= k < n)%Z -> in_grid W (moved axis c k).
Proof.
  destruct c as [[x y] z]. unfold in_grid, W, wcell, n, moved, vget. intros H. destruct Hax as [->|[->| ->]]; cbn [Z.eqb Pos.eqb]; lia.
Qed.

Lemma line_get c t : in_grid W c -> (0 <= axis_of axis c + t < n)%Z ->
  get vals (cell_index W c + t * (if (axis =? 1)%Z then v0 w else if (axis =? 2)%Z then v0 w * v1 w else 1)) = Ok (line c (axis_of axis c + t)%Z).
Proof.
  intros Hc Ht. pose proof (cell_index_range W _ (moved_grid c _ Hc Ht)) as RG.
  assert (cell_index W c + t * (if (axis =? 1)%Z then v0 w else if (axis =? 2)%Z then v0 w * v1 w else 1) = cell_index W (moved axis c (axis_of axis c + t)))%Z as ->.
  { destruct c as [[x y] z]. unfold cell_index, W, wcell, moved, axis_of. destruct Hax as [->|[->| ->]]; cbn [Z.eqb Pos.eqb]; ring. }
  rewrite (get_ok 0) by lia. reflexivity.
Qed.

Lemma border_get c t : in_grid W c -> (0 <= axis_of axis c + t < n)%Z ->
  (0 <= cell_index W c + t * (if (axis =? 1)%Z then v0 w else 1) < zlen vals)%Z.
Proof.
  intros Hc Ht. destruct (Z.eq_dec axis 2) as [E|E].
  2:{ pose proof (line_get c t Hc Ht) as G. apply get_inv in G. rewrite (proj2 (Z.eqb_neq axis 2) E) in G. exact G. }
  rewrite Lv. unfold n in Ht. rewrite E in Ht |- *. destruct c as [[x y] z]. unfold in_grid, W, wcell, axis_of, vget in *.
  cbn [Z.eqb Pos.eqb] in *. unfold cell_index, volume.
  set (A := (v0 w * v1 w)%Z). assert (0 < A)%Z by (unfold A; nia). assert (0 <= x + y * v0 w < A)%Z by (unfold A; nia).
  assert (z <= z * A)%Z by nia. assert (v2 w - 1 - z <= (v2 w - 1 - z) * A)%Z by nia. split; nia.
Qed.

Let wrapped := (periodic opt && (cells =? n)%Z)%bool.
Let border_val c :=
  valr 0 (let pos := posn h n (axis_of axis c) in let dj := if (axis =? 1)%Z then v0 w else 1%Z in
    if wrapped then wrap (NF := RNum) (order opt) vals (denom_of (order opt) dx) (cell_index W c) dj pos n
    else edge (NF := RNum) (order opt) vals (denom_of (order opt) dx) (cell_index W c) dj pos).
Let D c := if (posn h n (axis_of axis c) =? 0)%Z then central (order opt) dx (line c) (axis_of axis c) else border_val c.

Lemma grid_deriv_touched : exists o, gd = Ok o /\ touched W (dop opt) D (fun _ => true) out o.
Proof.
  assert (0 < h /\ 2 * h < n)%Z as Hh by (pose proof Hn as Hn'; unfold h, n; destruct Hord as [E|E]; rewrite E in Hn' |- *; [change (2 / 2)%Z with 1%Z|change (4 / 2)%Z with 2%Z]; lia).
  apply wp_ok. unfold gd, grid_deriv. cbv zeta. cbn [gl_grid new_grid_location gl_box gl_cells].
  change (width (gcb (new_grid org w))) with w. change (glength (new_grid org w)) with (v0 w). change (garea (new_grid org w)) with (v0 w * v1 w)%Z.
  replace ((axis >? 2) || (axis <? 0))%Z%bool with false by lia.
  destruct (Z.ltb_spec (vget w axis) 3); [unfold n in Hh; lia|].
  replace (negb (order opt =? 2) && negb (order opt =? 4))%Z%bool with false by lia.
  replace (if (order opt =? 2)%Z then (bw / #cells * #2)%num else (bw / #cells * #12)%num) with (denom_of (order opt) dx)
    by (unfold denom_of, dx; rn; reflexivity).
  fold h. apply wp_bind. eapply wp_mono.
  { apply (interior_touched w axis h Hw Hax Hh (dop opt) D
      (fun x y z => flat (order opt) vals (denom_of (order opt) dx) (x + y * v0 w + z * (v0 w * v1 w))
         (if (axis =? 1)%Z then v0 w else if (axis =? 2)%Z then (v0 w * v1 w)%Z else 1%Z))); auto.
    intros x y z Hc Hp. rewrite (flat_ok vals _ _ n (axis_of axis (x, y, z)) (line (x, y, z))); auto.
    - f_equal. unfold D. fold n in Hp. rewrite Hp. reflexivity.
    - intros t Ht. exact (line_get (x, y, z) t Hc Ht).
    - pose proof (axis_range _ Hc). fold n in Hp. fold h. unfold posn in Hp.
      destruct (Z.ltb_spec (axis_of axis (x, y, z)) h); [lia|]. destruct (Z.leb_spec (n - h) (axis_of axis (x, y, z))); lia. }
  intros o1 T1. assert (zlen o1 = volume W) as L1 by (destruct T1; lia).
  assert (forall c, in_grid W c -> posn h n (axis_of axis c) <> 0%Z ->
    (if wrapped then wrap (NF := RNum) (order opt) vals (denom_of (order opt) dx) (cell_index W c) (if (axis =? 1)%Z then v0 w else 1%Z) (posn h n (axis_of axis c)) n
     else edge (NF := RNum) (order opt) vals (denom_of (order opt) dx) (cell_index W c) (if (axis =? 1)%Z then v0 w else 1%Z) (posn h n (axis_of axis c))) = Ok (D c)) as BV.
  { intros c Hc Hp. unfold D, border_val. cbv zeta. rewrite (proj2 (Z.eqb_neq _ _) Hp).
    assert (forall t, (0 <= axis_of axis c + t < n)%Z ->
      get vals (cell_index W c + t * (if (axis =? 1)%Z then v0 w else 1%Z)) =
      Ok ((fun k => zn 0 vals (cell_index W c + (k - axis_of axis c) * (if (axis =? 1)%Z then v0 w else 1%Z))) (axis_of axis c + t)%Z)) as G.
    { intros t Ht. cbv beta. replace (axis_of axis c + t - axis_of axis c)%Z with t by lia. apply (get_ok 0). apply border_get; auto. }
    pose proof (axis_range c Hc). destruct wrapped.
    - rewrite (wrap_ok vals _ _ n (axis_of axis c) _ dx G (order opt) _ Hord Hn) by auto. reflexivity.
    - destruct (edge_ok vals _ _ n (axis_of axis c) _ dx G (order opt) (posn h n (axis_of axis c)) Hord Hn) as (v & -> & _); auto. }
  assert (forall o2, touched W (dop opt) D (fun c => negb (posn h n (axis_of axis c) =? 0)%Z) o1 o2 -> touched W (dop opt) D (fun _ => true) out o2) as FIN.
  { intros o2 T2. eapply touched_ext; [|eapply touched_both; [|exact T1|exact T2]].
    - intros c Hc. cbv beta. fold n. destruct (posn h n (axis_of axis c) =? 0)%Z; reflexivity.
    - intros c Hc. cbv beta. fold n. destruct (posn h n (axis_of axis c) =? 0)%Z; cbn [negb]; congruence. }
  replace (negb (periodic opt) || negb (cells =? vget w axis))%Z%bool with (negb wrapped)
    by (unfold wrapped, n; destruct (periodic opt), (cells =? vget w axis)%Z; reflexivity).
  destruct wrapped; cbn [negb]; (eapply wp_mono; [apply (border_touched org w axis h Hw Hax Hh (dop opt) D); auto|exact FIN]);
    intros c Hc Hp; apply BV; auto.
Qed.

Lemma interior_thm_ : exists o, gd = Ok o /\ zlen o = volume W /\
  forall c, in_grid W c -> (h <= axis_of axis c < n - h)%Z ->
    at_cell W o c = combine_op (dop opt) (at_cell W out c) (central (order opt) dx (line c) (axis_of axis c)).
Proof.
  destruct grid_deriv_touched as (o & E & L & T). exists o. split; [auto|]. split; [lia|]. intros c Hc Hi. rewrite T by auto. unfold D.
  replace (posn h n (axis_of axis c)) with 0%Z by (unfold posn; bdec). reflexivity.
Qed.

(** The whole result. *)
Let circle (a : Z) : bool := (periodic opt && (cells =? axis_of a W)%Z)%bool.
Lemma faces_thm_ : exists o, gd = Ok o /\ zlen o = volume W /\ forall c, in_grid W c ->
  at_cell W o c = combine_op (dop opt) (at_cell W out c) (taken_slope W (order opt) dx circle vals axis c).
Proof.
  destruct grid_deriv_touched as (o & E & L & T). exists o. split; [auto|]. split; [lia|]. intros c Hc. rewrite T by auto. f_equal.
  pose proof (axis_range c Hc) as HR. assert (axis_of axis W = n) as EN.
  { unfold W, wcell, n, axis_of, vget. reflexivity. }
  assert (circle axis = wrapped) as EC by (unfold circle; rewrite EN; reflexivity).
  unfold taken_slope, inside2. rewrite EC. fold h. unfold D. destruct (Z.eqb_spec (posn h n (axis_of axis c)) 0) as [Z|NZ].
  - assert (h <= axis_of axis c < n - h)%Z as HH.
    { unfold posn in Z. destruct (Z.ltb_spec (axis_of axis c) h); [lia|]. destruct (Z.leb_spec (n - h) (axis_of axis c)); lia. }
    replace ((axis =? 2) && negb ((h <=? axis_of 2 c) && (axis_of 2 c <? axis_of 2 W - h)))%Z%bool with false.
    2:{ destruct (Z.eqb_spec axis 2) as [E2|]; [|reflexivity]. rewrite E2 in HH, EN. rewrite EN. lia. }
    unfold field_slope. rewrite EN. change (fun k => at_cell W vals (moved axis c k)) with (line c).
    destruct wrapped; [|symmetry; apply line_slope_inner; auto]. unfold line_slope. rewrite central_stencil by auto.
    unfold central. unfold h in HH. destruct Hord as [E1|E1]; rewrite E1 in HH |- *; cbn [Z.eqb Pos.eqb] in *; [change (2 / 2)%Z with 1%Z in *|change (4 / 2)%Z with 2%Z in *]; rewrite !Z.mod_small by lia; reflexivity.
  - assert (forall u, (forall t, (0 <= axis_of axis c + t < n)%Z -> get vals (cell_index W c + t * (if (axis =? 1)%Z then v0 w else 1%Z)) = Ok (u (axis_of axis c + t)%Z)) ->
      border_val c = line_slope (order opt) dx n wrapped u (axis_of axis c)) as G.
    { intros u Hu. unfold border_val. cbv zeta. destruct wrapped.
      - rewrite (wrap_ok vals (cell_index W c) _ n (axis_of axis c) u dx Hu (order opt) _ Hord Hn) by auto. unfold line_slope. rewrite central_stencil by auto. reflexivity.
      - rewrite (edge_slope vals (cell_index W c) _ n (axis_of axis c) u dx Hu (order opt) _ Hord Hn) by auto. reflexivity. }
    destruct (Z.eqb_spec axis 2) as [E2|N2].
    + assert (HH : ~ (h <= axis_of axis c < n - h)%Z).
      { intros HH. apply NZ. unfold posn. bdec. }
      replace ((true && negb ((h <=? axis_of 2 c) && (axis_of 2 c <? axis_of 2 W - h)))%Z%bool) with true by (rewrite <- E2, EN; lia).
      unfold list_slope. rewrite <- E2, EN, EC. apply G. intros t Ht. pose proof (border_get c t Hc Ht) as BG. rewrite (get_ok 0) by exact BG. f_equal. unfold zn. f_equal. f_equal. rewrite E2. cbn [Z.eqb Pos.eqb]. lia.
    + cbn [andb]. unfold field_slope. rewrite EN. apply G. intros t Ht. pose proof (line_get c t Hc Ht) as Q. rewrite (proj2 (Z.eqb_neq axis 2) N2) in Q. exact Q.
Qed.

Hypothesis Hax2 : axis <> 2%Z.

Lemma line_get' c t : in_grid W c -> (0 <= axis_of axis c + t < n)%Z ->
  get vals (cell_index W c + t * (if (axis =? 1)%Z then v0 w else 1)) = Ok (line c (axis_of axis c + t)%Z).
Proof. intros. rewrite <- line_get by auto. rewrite (proj2 (Z.eqb_neq axis 2) Hax2). reflexivity. Qed.

Lemma edges_thm_ : wrapped = false -> exists o, gd = Ok o /\ zlen o = volume W /\
  forall c p, in_grid W c -> dx <> 0 -> (zlen p <= order opt + 1)%Z ->
    (forall k, (0 <= k < n)%Z -> line c k = poly p (IZR k * dx)) ->
    at_cell W o c = combine_op (dop opt) (at_cell W out c) (poly (dpoly p) (IZR (axis_of axis c) * dx)).
Proof.
  intros NW. destruct grid_deriv_touched as (o & E & L & T). exists o. split; [auto|]. split; [lia|]. intros c p Hc Hd Lp HP. rewrite T by auto.
  f_equal. pose proof (axis_range c Hc). unfold D. destruct (Z.eqb_spec (posn h n (axis_of axis c)) 0) as [Z|NZ].
  - rewrite <- (central_exact (order opt) dx p) by auto. unfold central.
    assert (h <= axis_of axis c < n - h)%Z as HH.
    { unfold posn in Z. destruct (Z.ltb_spec (axis_of axis c) h); [lia|]. destruct (Z.leb_spec (n - h) (axis_of axis c)); lia. }
    unfold h in HH. destruct Hord as [E1|E1]; rewrite E1 in HH |- *; cbn [Z.eqb Pos.eqb] in *; [change (2 / 2)%Z with 1%Z in *|change (4 / 2)%Z with 2%Z in *]; rewrite !HP by lia; reflexivity.
  - unfold border_val. rewrite NW. cbv zeta.
    destruct (edge_ok vals (cell_index W c) _ n (axis_of axis c) (line c) dx (fun t => line_get' c t Hc) (order opt) (posn h n (axis_of axis c)) Hord Hn) as (v & -> & V); auto.
Qed.

Lemma wraps_thm_ : wrapped = true -> exists o, gd = Ok o /\ zlen o = volume W /\
  forall c, in_grid W c ->
    at_cell W o c = combine_op (dop opt) (at_cell W out c) (central (order opt) dx (fun k => line c (k mod n)%Z) (axis_of axis c)).
Proof.
  intros NW. destruct grid_deriv_touched as (o & E & L & T). exists o. split; [auto|]. split; [lia|]. intros c Hc. rewrite T by auto.
  f_equal. pose proof (axis_range c Hc). unfold D. destruct (Z.eqb_spec (posn h n (axis_of axis c)) 0) as [Z|NZ].
  - assert (h <= axis_of axis c < n - h)%Z as HH.
    { unfold posn in Z. destruct (Z.ltb_spec (axis_of axis c) h); [lia|]. destruct (Z.leb_spec (n - h) (axis_of axis c)); lia. }
    unfold central. unfold h in HH. destruct Hord as [E1|E1]; rewrite E1 in HH |- *; cbn [Z.eqb Pos.eqb] in *; [change (2 / 2)%Z with 1%Z in *|change (4 / 2)%Z with 2%Z in *]; rewrite !Z.mod_small by lia; reflexivity.
  - unfold border_val. rewrite NW. cbv zeta.
    rewrite (wrap_ok vals (cell_index W c) _ n (axis_of axis c) (line c) dx (fun t => line_get' c t Hc) (order opt) _ Hord Hn) by auto. reflexivity.
Qed.
End Whole.

Definition grid_derivR := grid_deriv (D := R) (F := R) (ND := RNum) (NF := RNum) (fun x => x).

Lemma interior_thm org w axis vals out bw cells opt :
  (0 < v0 w /\ 0 < v1 w /\ 0 < v2 w)%Z -> (axis = 0 \/ axis = 1 \/ axis = 2)%Z -> (order opt = 2 \/ order opt = 4)%Z ->
  (order opt < vget w axis)%Z -> zlen vals = volume (wcell w) -> zlen out = volume (wcell w) ->
  exists o, grid_derivR (new_grid_location org w bw cells) vals out axis opt = Ok o /\ zlen o = volume (wcell w) /\
  forall c, in_grid (wcell w) c -> (order opt / 2 <= axis_of axis c < vget w axis - order opt / 2)%Z ->
    at_cell (wcell w) o c = combine_op (dop opt) (at_cell (wcell w) out c)
      (central (order opt) (bw / IZR cells) (fun k => at_cell (wcell w) vals (moved axis c k)) (axis_of axis c)).
Proof. intros. apply interior_thm_; auto. Qed.

Lemma faces_thm org w axis vals out bw cells opt :
  (0 < v0 w /\ 0 < v1 w /\ 0 < v2 w)%Z -> (axis = 0 \/ axis = 1 \/ axis = 2)%Z -> (order opt = 2 \/ order opt = 4)%Z ->
  (order opt < vget w axis)%Z -> zlen vals = volume (wcell w) -> zlen out = volume (wcell w) ->
  let W := wcell w in
  exists o, grid_derivR (new_grid_location org w bw cells) vals out axis opt = Ok o /\ zlen o = volume W /\
  forall c, in_grid W c -> at_cell W o c = combine_op (dop opt) (at_cell W out c)
    (taken_slope W (order opt) (bw / IZR cells) (fun a => periodic opt && (cells =? axis_of a W)%Z)%bool vals axis c).
Proof. intros. apply faces_thm_; auto. Qed.

(** Away from the faces the slope is the central difference. *)
Lemma slope_inner w ord h circle vals a c : ord = 2%Z \/ ord = 4%Z -> (ord / 2 <= axis_of a c < axis_of a w - ord / 2)%Z ->
  field_slope w ord h circle vals a c = central ord h (fun k => at_cell w vals (moved a c k)) (axis_of a c).
Proof.
  intros O H. unfold field_slope. destruct circle; [|apply line_slope_inner; auto]. unfold line_slope. rewrite central_stencil by auto.
  unfold central. destruct O as [-> | ->]; cbn [Z.eqb Pos.eqb]; [change (2 / 2)%Z with 1%Z in *|change (4 / 2)%Z with 2%Z in *]; rewrite !Z.mod_small by lia; reflexivity.
Qed.

(** The weights are exact on polynomials. *)
Lemma stencil_exact ord h a lo p : ord = 2%Z \/ ord = 4%Z -> (0 <= p <= ord)%Z -> (zlen a <= ord + 1)%Z -> h <> 0 ->
  stencil ord h (fun k => poly a (IZR k * h)) lo p = poly (dpoly a) (IZR (lo + p) * h).
Proof.
  intros [-> | ->] Hp L Hh; unfold stencil.
  - destruct (poly_pad3 a L) as (q & r & s & E0 & E). rewrite E. assert (p = 0 \/ p = 1 \/ p = 2)%Z as J by lia.
    destruct J as [-> |[-> | ->]]; ws; rewrite !E0; unfold dpoly; cbn [tl dcoefs poly Z.add Pos.add Pos.succ]; rewrite !plus_IZR; field; auto.
  - destruct (poly_pad5 a L) as (q & r & s & t & u & E0 & E). rewrite E. assert (p = 0 \/ p = 1 \/ p = 2 \/ p = 3 \/ p = 4)%Z as J by lia.
    destruct J as [-> |[-> |[-> |[-> | ->]]]]; ws; rewrite !E0; unfold dpoly; cbn [tl dcoefs poly Z.add Pos.add Pos.succ]; rewrite !plus_IZR; field; auto.
Qed.

Lemma get_is {A} (l : list A) i : (exists a, get l i = Ok a) \/ get l i = Panic.
Proof. unfold get. destruct (i <? 0)%Z; [now right|]. destruct (nth_error l (Z.to_nat i)); [left; eauto|now right]. Qed.
Lemma for_same {S} lo hi (s : S) : for_ lo hi (fun _ s => Ok s) s = Ok s.
Proof. unfold for_. generalize (Z.to_nat (hi - lo)) as k. intros k. revert lo. induction k as [|k IH]; intros a; [reflexivity|]. cbn. apply IH. Qed.

(** Lines of three or four cells are too short for the fourth order, unless they
    are closed to a circle. *)
Lemma short_line org w axis vals out bw cells opt : (0 < v0 w /\ 0 < v1 w /\ 0 < v2 w)%Z -> (axis = 0 \/ axis = 1)%Z -> order opt = 4%Z ->
  (3 <= vget w axis <= 4)%Z -> periodic opt = false \/ cells <> vget w axis ->
  grid_derivR (new_grid_location org w bw cells) vals out axis opt = Panic.
Proof.
  intros Hw Hax HO Hn NW. unfold grid_derivR, grid_deriv. cbv zeta. cbn [gl_grid new_grid_location gl_box gl_cells].
  change (width (gcb (new_grid org w))) with w. change (glength (new_grid org w)) with (v0 w). change (garea (new_grid org w)) with (v0 w * v1 w)%Z.
  rewrite HO. replace ((axis >? 2) || (axis <? 0))%Z%bool with false by lia. replace (vget w axis <? 3)%Z with false by lia.
  cbn [Z.eqb Pos.eqb negb andb]. replace (negb (periodic opt) || negb (cells =? vget w axis))%Z%bool with true by (destruct NW as [-> |NW]; [reflexivity|]; destruct (periodic opt); lia).
  change (4 / 2)%Z with 2%Z. unfold border. change (4 / 2)%Z with 2%Z.
  change (width (gcb (new_grid org w))) with w. change (glength (new_grid org w)) with (v0 w). change (garea (new_grid org w)) with (v0 w * v1 w)%Z.
  destruct Hax as [-> | ->]; unfold vset, vget in *; cbn [Z.eqb Pos.eqb v0 v1 v2] in *.
  - rewrite for_empty by lia. cbn [bind]. rewrite (for_step (- (2))) by lia. cbn [Z.eqb Z.opp Z.gtb Z.compare Pos.eqb].
    rewrite (for_step 0 (v2 w)) by lia. rewrite (for_step 0 (v1 w)) by lia. unfold edge. cbn [Z.eqb Pos.eqb Z.opp].
    repeat match goal with |- context [bind (get vals ?i) _] => let Q := fresh "Q" in destruct (get_is vals i) as [[? Q]|Q]; rewrite Q; cbn [bind]; [apply get_inv in Q|reflexivity] end; exfalso; nia.
  - rewrite (for_ext _ (fun _ o => Ok o)) by (intros; apply for_empty; lia). rewrite for_same. cbn [bind].
    rewrite (for_step (- (2))) by lia. cbn [Z.eqb Z.opp Z.gtb Z.compare Pos.eqb].
    rewrite (for_step 0 (v2 w)) by lia. rewrite (for_step 0 (v0 w)) by lia. unfold edge. cbn [Z.eqb Pos.eqb Z.opp].
    repeat match goal with |- context [bind (get vals ?i) _] => let Q := fresh "Q" in destruct (get_is vals i) as [[? Q]|Q]; rewrite Q; cbn [bind]; [apply get_inv in Q|reflexivity] end; exfalso; nia.
Qed.

Lemma edges_thm org w axis vals out bw cells opt :
  (0 < v0 w /\ 0 < v1 w /\ 0 < v2 w)%Z -> (axis = 0 \/ axis = 1)%Z -> (order opt = 2 \/ order opt = 4)%Z ->
  (order opt < vget w axis)%Z -> zlen vals = volume (wcell w) -> zlen out = volume (wcell w) ->
  periodic opt = false \/ cells <> vget w axis ->
  exists o, grid_derivR (new_grid_location org w bw cells) vals out axis opt = Ok o /\ zlen o = volume (wcell w) /\
  forall c p, in_grid (wcell w) c -> bw / IZR cells <> 0 -> (zlen p <= order opt + 1)%Z ->
    (forall k, (0 <= k < vget w axis)%Z -> at_cell (wcell w) vals (moved axis c k) = poly p (IZR k * (bw / IZR cells))) ->
    at_cell (wcell w) o c =
      combine_op (dop opt) (at_cell (wcell w) out c) (poly (dpoly p) (IZR (axis_of axis c) * (bw / IZR cells))).
Proof.
  intros Hw Hax Ho Hn Lv Lo NP. apply edges_thm_; auto; try lia.
  destruct NP as [-> |NP]; [reflexivity|]. apply andb_false_iff. right. now apply Z.eqb_neq.
Qed.

Lemma wraps_thm org w axis vals out bw cells opt :
  (0 < v0 w /\ 0 < v1 w /\ 0 < v2 w)%Z -> (axis = 0 \/ axis = 1)%Z -> (order opt = 2 \/ order opt = 4)%Z ->
  (order opt < vget w axis)%Z -> zlen vals = volume (wcell w) -> zlen out = volume (wcell w) ->
  periodic opt = true -> cells = vget w axis ->
  exists o, grid_derivR (new_grid_location org w bw cells) vals out axis opt = Ok o /\ zlen o = volume (wcell w) /\
  forall c, in_grid (wcell w) c ->
    at_cell (wcell w) o c = combine_op (dop opt) (at_cell (wcell w) out c)
      (central (order opt) (bw / IZR cells)
         (fun k => at_cell (wcell w) vals (moved axis c (k mod vget w axis)%Z)) (axis_of axis c)).
Proof.
  intros Hw Hax Ho Hn Lv Lo HP HC. apply wraps_thm_; auto; try lia. rewrite HP, HC, Z.eqb_refl. reflexivity.
Qed.

Lemma everywhere_thm org w axis vals out bw cells opt :
  (0 < v0 w /\ 0 < v1 w /\ 0 < v2 w)%Z -> (axis = 0 \/ axis = 1)%Z -> (order opt = 2 \/ order opt = 4)%Z ->
  (order opt < vget w axis)%Z -> zlen vals = volume (wcell w) -> zlen out = volume (wcell w) ->
  exists o, grid_derivR (new_grid_location org w bw cells) vals out axis opt = Ok o /\ zlen o = volume (wcell w) /\
  forall c, in_grid (wcell w) c -> at_cell (wcell w) o c = combine_op (dop opt) (at_cell (wcell w) out c)
    (field_slope (wcell w) (order opt) (bw / IZR cells) (periodic opt && (cells =? axis_of axis (wcell w))%Z) vals axis c).
Proof.
  intros Hw Hax Ho Hn Lv Lo. destruct (faces_thm org w axis vals out bw cells opt) as (o & E & L & V); auto; [lia|]. exists o. split; [exact E|]. split; [exact L|].
  intros c Hc. rewrite (V c Hc). unfold taken_slope. replace (axis =? 2)%Z with false by lia. reflexivity.
Qed.
Lemma slope_ex : field_slope (3, 1, 1)%Z 2 1 false [0; 1; 4] 0%Z (2, 0, 0)%Z = 4 /\ window 2 3 2 = 0%Z /\ window 4 9 7 = 4%Z.
Proof.
  split; [|split; reflexivity]. unfold field_slope, line_slope. change (window 2 _ _) with 0%Z. unfold stencil.
  change (weights 2 _) with [1; -4; 3]%Z. cbn [weighted Z.eqb Pos.eqb]. change (at_cell (3, 1, 1)%Z [0; 1; 4] (moved 0 (2, 0, 0)%Z 0)) with 0. change (at_cell (3, 1, 1)%Z [0; 1; 4] (moved 0 (2, 0, 0)%Z (0 + 1))) with 1.
  change (at_cell (3, 1, 1)%Z [0; 1; 4] (moved 0 (2, 0, 0)%Z (0 + 1 + 1))) with 4. lra.
Qed.
