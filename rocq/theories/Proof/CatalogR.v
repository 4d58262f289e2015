(** Reading values and halos from catalogues. *)
From Coq Require Import ZArith Reals String List Bool Sorted Permutation Lia ZifyBool ZifyNat Lra.
From Flocq Require Import Core.Raux.
From Verif Require Import Base.Res Base.ResFacts Base.Num Base.Bytes Model.SheetIO Model.Config Model.Cosmo Model.Catalog.
From Verif Require Import Spec.Files Spec.Work Spec.Catalogs Spec.Halos Proof.BytesP Proof.WorkP Proof.HaloP Proof.CatalogP Proof.CatalogT.
Import ListNotations.
Open Scope R_scope.

Definition real_vals := @read_rockstar_vals R RNum sqrt Rpower real_consts.

Lemma Forall2_map_r {A B} (P : A -> B -> Prop) (g : A -> B) l : (forall a, In a l -> P a (g a)) -> Forall2 P l (map g l).
Proof. induction l; intros H; cbn; constructor; [apply H; now left|apply IHl; intros; apply H; now right]. Qed.

Section Vals.
Variable c : cosmo_header R.
Hypothesis Ho : 0 < ch_omegaM c.
Hypothesis Hl : 0 <= ch_omegaL c.
Hypothesis Hz : -1 < ch_z c.
Hypothesis Hh : ch_h100 c <> 0.
Variable col : Z -> list R.
Hypothesis Hpos : forall v r k, radius_column v = Some (r, k) -> Forall (fun m => 0 < m) (col k).

Definition value (val : Z) : list R :=
  match radius_column val with
  | Some (r, k) => map (rad1 r c) (col k)
  | None => if kpc_column val then map (fun v => v / 1000) (col val) else col val
  end.

Lemma value_wanted val : wanted (ch_omegaM c) (ch_omegaL c) (ch_z c) col val (value val).
Proof.
  unfold wanted, value. destruct (radius_column val) as [[r k]|] eqn:E.
  - assert (Hr : (0 <= r <= 4)%Z).
    { unfold radius_column in E. repeat match type of E with context [match ?x with _ => _ end] => destruct x; try discriminate end; inversion E; lia. }
    pose proof (Hpos _ _ _ E) as P. rewrite Forall_forall in P. apply Forall2_map_r. intros m Hm. split; [now apply rad1_pos|]. rewrite <- mass1_eq by auto. rewrite mass_rad; auto.
  - destruct (kpc_column val); auto. apply Forall2_map_r. intros v _. field.
Qed.

Lemma radius_column_other v : v <> 63%Z -> v <> 64%Z -> v <> 65%Z -> v <> 66%Z -> v <> 67%Z -> radius_column v = None.
Proof.
  intros. unfold radius_column. repeat match goal with |- context [match ?x with _ => _ end] => destruct x; try reflexivity; try lia end.
Qed.

Lemma convert_col_ok val : convert_col sqrt Rpower real_consts c val (col (col_of_val val)) = Ok (value val).
Proof.
  unfold convert_col, col_of_val, value.
  destruct (Z.eqb_spec val vRadVir) as [-> | N1]; [cbn [vRadVir radius_column]; apply radius_of_eq; auto; unfold RVirial; lia|].
  destruct (Z.eqb_spec val vRad200b) as [-> | N2]; [cbn [vRad200b radius_column]; apply radius_of_eq; auto; unfold R200m; lia|].
  destruct (Z.eqb_spec val vRad200c) as [-> | N3]; [cbn [vRad200c radius_column]; apply radius_of_eq; auto; unfold R200c; lia|].
  destruct (Z.eqb_spec val vRad500c) as [-> | N4]; [cbn [vRad500c radius_column]; apply radius_of_eq; auto; unfold R500c; lia|].
  destruct (Z.eqb_spec val vRad2500c) as [-> | N5]; [cbn [vRad2500c radius_column]; apply radius_of_eq; auto; unfold R2500c; lia|].
  rewrite radius_column_other by auto. unfold kpc_column.
  replace ((val =? vRs)%Z || (val =? vRVir)%Z || (val =? vRsKylpin)%Z)%bool with ((val =? 11) || (val =? 12) || (val =? 34))%Z%bool by (unfold vRs, vRVir, vRsKylpin; lia).
  destruct (_ || _)%bool; auto.
Qed.

Lemma vals_ok getter flags : (forall cs, getter cs = Ok (Good (map col cs))) ->
  real_vals getter c flags = Ok (Good (map Ztrunc (col 1%Z), map value flags)).
Proof.
  intros G. unfold real_vals, read_rockstar_vals. rewrite G. cbn [bind map]. rewrite (get_ok []) by (rewrite zlen_cons; pose proof (zlen_nonneg (map col (map col_of_val flags))); lia). cbn [bind].
  set (vals := col vID :: map col (map col_of_val flags)).
  assert (L : zlen vals = (1 + zlen flags)%Z) by (unfold vals; now rewrite zlen_cons, !zlen_map).
  assert (V : forall i, (0 <= i < zlen flags)%Z -> zn [] vals (i + 1) = col (col_of_val (zn 0%Z flags i))).
  { intros i Hi. unfold vals. change (?x :: ?l) with ([x] ++ l). rewrite zn_app by lia. change (zlen [col vID]) with 1%Z. replace (i + 1 <? 1)%Z with false by lia. replace (i + 1 - 1)%Z with i by lia.
    rewrite map_map. now rewrite (zn_map (fun x => col (col_of_val x)) 0%Z) by auto. }
  assert (W : wp (for_ 0 (zlen flags) (fun i vals => bind (get flags i) (fun val => bind (get vals (i + 1)%Z) (fun cl => bind (convert_col sqrt Rpower real_consts c val cl) (fun cl => set vals (i + 1)%Z cl)))) vals)
    (fun o => zlen o = zlen vals /\ (forall j, (0 <= j < zlen flags)%Z -> zn [] o (j + 1) = value (zn 0%Z flags j)))).
  { apply wp_mono with (P := fun o => zlen o = zlen vals /\ (forall j, (0 <= j < zlen flags)%Z -> zn [] o (j + 1) = value (zn 0%Z flags j)) /\ (forall j, (zlen flags <= j < zlen flags)%Z -> zn [] o (j + 1) = zn [] vals (j + 1))); [|intros o (A & B & _); auto].
    apply (for_inv (fun t o => zlen o = zlen vals /\ (forall j, (0 <= j < t)%Z -> zn [] o (j + 1) = value (zn 0%Z flags j)) /\ (forall j, (t <= j < zlen flags)%Z -> zn [] o (j + 1) = zn [] vals (j + 1)))).
    - apply zlen_nonneg.
    - split; auto. split; intros; [lia|auto].
    - intros i o Hi (A & B & C). rewrite (get_ok 0%Z) by auto. cbn [bind]. rewrite (get_ok []) by lia. cbn [bind]. rewrite C by lia. rewrite V by auto. rewrite convert_col_ok. cbn [bind].
      rewrite set_ok by lia. cbn [wp]. split; [now rewrite zlen_upd|]. split; intros j Hj; rewrite zn_upd by lia; destruct (Z.eqb_spec (j + 1) (i + 1)) as [E|E]; try lia.
      1: (replace j with i by lia; reflexivity). all: first [apply B; lia | apply C; lia]. }
  apply (proj1 (wp_ok _ _)) in W. destruct W as (o & E & A & B). etransitivity; [apply (f_equal (fun r => bind r _)); exact E|]. cbn [bind].
  pose proof (zlen_nonneg flags). rewrite slice_ok by lia. cbn [bind]. rewrite firstn_all2 by (rewrite skipn_length; clear - A L; unfold zlen in *; lia).
  f_equal. f_equal. f_equal. apply (list_ext []).
  - rewrite zlen_skipn, zlen_map by lia. lia.
  - intros i Hi. rewrite zlen_skipn in Hi by lia. rewrite (zn_skipn [] o 1%Z) by lia. rewrite (zn_map value 0%Z) by lia. replace (1 + i)%Z with (i + 1)%Z by lia. apply B. lia.
Qed.

Theorem vals_thm getter flags : (forall cs, getter cs = Ok (Good (map col cs))) ->
  exists outs, real_vals getter c flags = Ok (Good (map Ztrunc (col 1%Z), outs)) /\
    Forall2 (fun v out => wanted (ch_omegaM c) (ch_omegaL c) (ch_z c) col v out) flags outs.
Proof. intros G. exists (map value flags). split; [now apply vals_ok|]. apply Forall2_map_r. intros. apply value_wanted. Qed.
End Vals.

(** ** ReadRockstar *)
Definition real_halos (srt : sorter) := @read_rockstar R RNum sqrt Rpower real_consts srt.

Lemma desc_weak {A} (g : A -> R) : strict_weak (fun a b => nltb (g b) (g a)).
Proof.
  split; [|split]; cbn [nltb RNum]; intros *.
  - apply Rlt_bool_false. lra.
  - intros H K. destruct (Rlt_bool_spec (g b) (g a)), (Rlt_bool_spec (g c) (g b)); try discriminate. apply Rlt_bool_true. lra.
  - intros H K. destruct (Rlt_bool_spec (g b) (g a)), (Rlt_bool_spec (g c) (g b)); try discriminate. apply Rlt_bool_false. lra.
Qed.

Section Halos.
Variables (srt : sorter) (r : Z) (c : cosmo_header R).
Hypothesis Hs : sorts srt.
Hypothesis Hr : (0 <= r <= 4)%Z.
Hypothesis Ho : 0 < ch_omegaM c.
Hypothesis Hl : 0 <= ch_omegaL c.
Hypothesis Hz : -1 < ch_z c.
Hypothesis Hh : ch_h100 c <> 0.

Lemma col_mass table n : (forall k, In k [1; 17; 18; 19; table_column r]%Z -> zlen (table k) = n) ->
  Forall (fun v => 0 < v) (table (table_column r)) ->
  exists ms rs order, real_halos srt r c table =
    Ok (map (fun i => Ztrunc (zn 0 (table 1%Z) i)) order, map (zn 0 (table 17%Z)) order, map (zn 0 (table 18%Z)) order, map (zn 0 (table 19%Z)) order, map (zn 0 ms) order, map (zn 0 rs) order) /\
    Permutation order (zseq n) /\ largest_first (map (zn 0 rs) order) /\ zlen ms = n /\ zlen rs = n /\
    (if (r =? 0)%Z then Forall2 (fun v x => v = 1000 * x) (table (table_column r)) rs else ms = table (table_column r)) /\
    Forall2 (fun m x => 0 < x /\ m = sphere_mass r (ch_omegaM c) (ch_omegaL c) (ch_z c) x) ms rs.
Proof.
  intros HLt P. pose proof (HLt 1%Z ltac:(cbn; tauto)) as Li. pose proof (HLt 17%Z ltac:(cbn; tauto)) as Lx. pose proof (HLt 18%Z ltac:(cbn; tauto)) as Ly.
  pose proof (HLt 19%Z ltac:(cbn; tauto)) as Lz. pose proof (HLt (table_column r) ltac:(cbn; tauto)) as Lc. unfold real_halos, read_rockstar.
  assert (E1 : rockstar_column r = Ok (table_column r)).
  { assert (E : (r = 0 \/ r = 1 \/ r = 2 \/ r = 3 \/ r = 4)%Z) by lia. destruct E as [-> | [-> | [-> | [-> | ->]]]]; reflexivity. }
  rewrite E1. cbn [bind]. revert Li Lx Ly Lz Lc P. generalize (table 1%Z), (table 17%Z), (table 18%Z), (table 19%Z), (table (table_column r)). intros ids xs ys zs col Li Lx Ly Lz Lc P. cbn zeta. clear HLt E1 table.
  assert (E2 : rockstar_mass r = Ok (negb (r =? 0)%Z)).
  { assert (E : (r = 0 \/ r = 1 \/ r = 2 \/ r = 3 \/ r = 4)%Z) by lia. destruct E as [-> | [-> | [-> | [-> | ->]]]]; reflexivity. }
  rewrite E2. cbn [bind].
  assert (Q : exists ms rs, zlen ms = n /\ zlen rs = n /\ (if (r =? 0)%Z then Forall2 (fun v x => v = 1000 * x) col rs else ms = col) /\
      Forall2 (fun m x => 0 < x /\ m = sphere_mass r (ch_omegaM c) (ch_omegaL c) (ch_z c) x) ms rs /\
      (if negb (r =? 0)%Z then bind (radius_of sqrt Rpower real_consts r c col (repeat (#0)%num (List.length col))) (fun rs => Ok (col, rs))
       else bind (mass_of sqrt Rpower real_consts r c (map (fun v => v / #1000)%num col) (repeat (#0)%num (List.length (map (fun v => v / #1000)%num col)))) (fun ms => Ok (ms, (map (fun v => v / #1000)%num col)))) = Ok (ms, rs)).
  { rewrite Forall_forall in P. destruct (r =? 0)%Z; cbn [negb].
    - exists (map (mass1 r c) (map (fun v => v / 1000) col)), (map (fun v => v / 1000) col). rewrite !zlen_map. split; [auto|]. split; [auto|]. split; [apply Forall2_map_r; intros; field|]. split.
      + clear - P Hr Ho Hl Hz Hh. induction col as [|v l IH]; cbn; constructor.
        * split; [|now apply mass1_eq]. apply Rdiv_lt_0_compat; [apply P; now left|lra]. * apply IH. intros x Hx. apply P. now right.
      + rn. rewrite mass_of_eq; auto. rewrite zlen_repeat. reflexivity.
    - exists col, (map (rad1 r c) col). rewrite !zlen_map. split; [auto|]. split; [auto|]. split; [auto|]. split.
      + apply Forall2_map_r. intros m Hm. split; [now apply rad1_pos|]. rewrite <- mass1_eq by auto. rewrite mass_rad; auto.
      + rewrite radius_of_eq; auto. rewrite zlen_repeat. reflexivity. }
  destruct Q as (ms & rs & Lm & Lr & Q1 & Q2 & E).
  exists ms, rs.
  set (row := fun i => HRow (Ztrunc (zn 0 ids i)) (zn 0 xs i) (zn 0 ys i) (zn 0 zs i) (zn 0 ms i) (zn 0 rs i)).
  set (less := fun a b : hrow R => nltb (hw_r b) (hw_r a)).
  destruct (Hs (hrow R) less (map row (zseq n)) (desc_weak hw_r)) as [Pm So].
  destruct (Permutation_map_inv _ _ Pm) as (order & Eo & Po).
  exists order. split; [|split; [now apply Permutation_sym|]].
  - etransitivity; [apply (f_equal (fun r => bind r _)); exact E|]. cbn [bind].
    rewrite (tabulate_ok _ row) by (try apply zlen_nonneg; intros i Hi;
      rewrite (get_ok 0%Z) by (rewrite zlen_map; lia); cbn [bind]; rewrite !(get_ok 0) by lia; cbn [bind]; rewrite (zn_map _ 0) by lia; reflexivity).
    cbn [bind]. replace (ztab (zlen rs) row) with (map row (zseq (zlen rs))) by (unfold ztab, zseq; now rewrite map_map). rewrite Lr. fold less. rewrite Eo. now rewrite !map_map.
  - split; [|auto]. unfold in_order in So. rewrite Eo in So. apply SS_map in So. apply SS_map. clear - So. induction So as [|a l S IH F]; constructor; auto.
    rewrite Forall_forall in F |- *. intros b Hb. specialize (F b Hb). unfold less, row in F. cbn [hw_r nltb RNum] in F. destruct (Rlt_bool_spec (zn 0 rs a) (zn 0 rs b)); [discriminate|lra].
Qed.
End Halos.

Lemma values_example : let col k := [IZR k + 1; 3] in
  (forall v r k, radius_column v = Some (r, k) -> Forall (fun m => 0 < m) (col k)) /\
  wanted (27 / 100) (73 / 100) 0 col 11 [12 / 1000; 3 / 1000] /\ wanted (27 / 100) (73 / 100) 0 col 20 [21; 3].
Proof.
  cbn zeta. split; [|split].
  - intros v r k E. assert (K : (0 <= k)%Z).
    { unfold radius_column in E. repeat match type of E with context [match ?x with _ => _ end] => destruct x; try discriminate end; inversion E; lia. }
    apply IZR_le in K. repeat constructor; lra.
  - cbn. repeat constructor; lra.
  - cbn. repeat f_equal. lra.
Qed.
