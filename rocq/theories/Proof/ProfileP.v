(** profile.go: removed subhalos, radii, directions, rounding, printing. *)
From Coq Require Import ZArith List Bool Lia Reals Lra Psatz ZifyBool ZifyNat.
From Flocq Require Import Core.Raux.
From Verif Require Import Base.Res Base.ResFacts Base.Num Model.Geom Model.GridDeriv Model.Halo Model.Profile Spec.Lines Proof.ProfileL Proof.ProfileR.
Import ListNotations.
Open Scope Z_scope.
Open Scope res_scope.

Lemma for_inv_max {S} (I : Z -> S -> Prop) lo hi (body : Z -> S -> res S) s :
  I lo s -> (forall i s, lo <= i < hi -> I i s -> wp (body i s) (I (i + 1))) ->
  wp (for_ lo hi body s) (I (Z.max lo hi)).
Proof.
  intros H0 H. destruct (Z_le_gt_dec lo hi).
  - rewrite Z.max_r by lia. apply for_inv; assumption || lia.
  - rewrite Z.max_l by lia. rewrite for_empty by lia. exact H0.
Qed.

Lemma wp_weaken {A} (r : res A) (P Q : A -> Prop) : (forall a, P a -> Q a) -> wp r P -> wp r Q.
Proof. intros H K. exact (wp_mono _ _ _ K H). Qed.

(** ** Removing a subhalo *)
Section Remove.
Context {D : Type} {ND : Num D}.
Variables (d nan : D) (s0 s1 s2 : Z) (grid : list D).
Hypothesis (H0 : 0 <= s0) (H1 : 0 <= s1) (H2 : 0 <= s2) (HL : zlen grid = s0 * s1 * s2).

Definition ix (a b c : Z) : Z := c * s0 * s1 + b * s0 + a.
Definition inr (a b c : Z) : Prop := 0 <= a < s0 /\ 0 <= b < s1 /\ 0 <= c < s2.

Lemma ix_range a b c : inr a b c -> 0 <= ix a b c < s0 * s1 * s2.
Proof. intros [A [B C]]. pose proof (cell_index _ _ _ _ _ _ A B C). unfold ix. lia. Qed.

Lemma ix_inj a b c a' b' c' : inr a b c -> inr a' b' c' -> ix a b c = ix a' b' c' -> a = a' /\ b = b' /\ c = c'.
Proof.
  unfold inr, ix. intros [A [B C]] [A' [B' C']] E.
  assert (E1 : a + s0 * (b + s1 * c) = a' + s0 * (b' + s1 * c')) by lia.
  assert (b + s1 * c = b' + s1 * c') by (destruct (Z.lt_trichotomy (b + s1 * c) (b' + s1 * c')) as [H | [H | H]]; [nia|exact H|nia]).
  assert (c = c') by (destruct (Z.lt_trichotomy c c') as [H' | [H' | H']]; [nia|exact H'|nia]).
  subst c'. assert (b = b') by lia. subst b'. split; [lia|split; reflexivity].
Qed.

Definition St (P : Z -> Z -> Z -> Prop) (g : list D) : Prop :=
  zlen g = zlen grid /\ forall a b c, inr a b c ->
    (P a b c -> zn d g (ix a b c) = nan) /\ (~ P a b c -> zn d g (ix a b c) = zn d grid (ix a b c)).

Lemma St_equiv P Q g : (forall a b c, inr a b c -> (P a b c <-> Q a b c)) -> St P g -> St Q g.
Proof.
  intros HPQ [L H]. split; [exact L|]. intros a b c Hi. destruct (H a b c Hi) as [A B]. specialize (HPQ a b c Hi). tauto.
Qed.

Lemma St_set P g a b c : St P g -> inr a b c ->
  exists g', set g (ix a b c) nan = Ok g' /\ St (fun a' b' c' => P a' b' c' \/ (a' = a /\ b' = b /\ c' = c)) g'.
Proof.
  intros [L H] Hi. pose proof (ix_range _ _ _ Hi). rewrite set_ok by lia. eexists. split; [reflexivity|].
  split; [rewrite zlen_upd; exact L|]. intros a' b' c' Hi'. pose proof (ix_range _ _ _ Hi').
  destruct (H a' b' c' Hi') as [A B]. rewrite zn_upd by lia.
  destruct (Z.eqb_spec (ix a' b' c') (ix a b c)) as [E|E].
  - rewrite Z.eqb_sym, E, Z.eqb_refl || idtac. apply ix_inj in E; [|assumption|assumption]. destruct E as [-> [-> -> ]].
    rewrite ?Z.eqb_refl. split; [reflexivity|tauto].
  - assert (E' : (ix a b c =? ix a' b' c') = false) by lia. rewrite ?E'.
    assert (~ (a' = a /\ b' = b /\ c' = c)) by (intros [-> [-> -> ]]; apply E; reflexivity). tauto.
Qed.
End Remove.

Section RemoveMain.
Context {D : Type} {ND : Num D}.
Variables (d nan : D) (bh bsh : cellbounds) (n : Z) (grid : list D).
Let o := origin bh. Let s := Geom.width bh. Let lo := origin bsh. Let hi := vmap2 Z.add (origin bsh) (Geom.width bsh).
Hypothesis (H0 : 0 <= v0 s <= n) (H1 : 0 <= v1 s <= n) (H2 : 0 <= v2 s <= n).
Hypothesis (HL : zlen grid = v0 s * v1 s * v2 s).
Hypothesis (R0 : v0 o - n <= v0 lo /\ v0 hi <= v0 o + n).
Hypothesis (R1 : v1 o - n <= v1 lo /\ v1 hi <= v1 o + n).
Hypothesis (R2 : v2 o - n <= v2 lo /\ v2 hi <= v2 o + n).

Definition hit (oo ss x c : Z) : Prop := bounds_inside oo ss x n = true /\ convert_index oo x n = c.

Lemma hit_range oo ss x c : 0 <= ss <= n -> oo - n <= x < oo + n -> hit oo ss x c -> 0 <= c < ss.
Proof. unfold hit, bounds_inside, convert_index. intros Hs Hx [A <-]. cbn zeta in *.
  destruct (x >=? oo + ss) eqn:E1; [lia|]. destruct (x <? oo) eqn:E2; destruct (x - oo <? 0) eqn:E3; lia. Qed.

Lemma hit_covered oo ss l h c : 0 <= ss <= n -> oo - n <= l -> h <= oo + n -> 0 <= c < ss ->
  ((exists x, l <= x < h /\ hit oo ss x c) <-> covered n oo l h c).
Proof.
  intros Hs Hl Hh Hc. split.
  - intros [x [Hx [A B]]]. unfold convert_index in B. exists x. destruct (x - oo <? 0) eqn:E.
    + exists (-1). lia.
    + exists 0. lia.
  - intros [x [k [Hx E]]]. exists x. split; [exact Hx|].
    assert (K : k = 0 \/ k = -1) by nia. unfold hit, bounds_inside, convert_index. cbn zeta.
    destruct K as [-> | -> ].
    + destruct (x >=? oo + ss) eqn:E1; [lia|]. destruct (x <? oo) eqn:E2; [lia|]. destruct (x - oo <? 0) eqn:E3; [lia|]. lia.
    + destruct (x >=? oo + ss) eqn:E1; [lia|]. destruct (x <? oo) eqn:E2; [|lia]. destruct (x - oo <? 0) eqn:E3; [|lia]. lia.
Qed.

Lemma no_hit oo ss x : bounds_inside oo ss x n = false -> forall c, ~ hit oo ss x c.
Proof. intros E c [A _]. congruence. Qed.

Let S := St d nan (v0 s) (v1 s) (v2 s) grid.

Lemma remove_exact : exists g', remove_subhalo bh bsh nan n grid = Ok g' /\
  S (fun a b c => covered n (v0 o) (v0 lo) (v0 hi) a /\ covered n (v1 o) (v1 lo) (v1 hi) b /\ covered n (v2 o) (v2 lo) (v2 hi) c) g'.
Proof.
  unfold remove_subhalo. fold o s lo hi.
  set (P2 := fun l h a b c => (exists x, v0 lo <= x < v0 hi /\ hit (v0 o) (v0 s) x a) /\
                              (exists y, v1 lo <= y < v1 hi /\ hit (v1 o) (v1 s) y b) /\
                              (exists z, l <= z < h /\ hit (v2 o) (v2 s) z c)).
  assert (L : wp (for_ (v2 lo) (v2 hi) (fun z grid =>
    if negb (bounds_inside (v2 o) (v2 s) z n) then Ok grid else
    for_ (v1 lo) (v1 hi) (fun y grid =>
      if negb (bounds_inside (v1 o) (v1 s) y n) then Ok grid else
      for_ (v0 lo) (v0 hi) (fun x grid =>
        if negb (bounds_inside (v0 o) (v0 s) x n) then Ok grid else
        let bx := convert_index (v0 o) x n in
        let by_ := convert_index (v1 o) y n in
        let bz := convert_index (v2 o) z n in
        set grid (bz * v0 s * v1 s + by_ * v0 s + bx) nan) grid) grid) grid)
     (S (P2 (v2 lo) (Z.max (v2 lo) (v2 hi))))).
  { eapply wp_weaken; [|apply (for_inv_max (fun z g => S (P2 (v2 lo) z) g))].
    - intros g Hg. exact Hg.
    - split; [reflexivity|]. intros a b c Hi. split; [intros [_ [_ [z [Hz _]]]]; lia|reflexivity].
    - intros z g Hz Hg. destruct (bounds_inside (v2 o) (v2 s) z n) eqn:Ez; cbn [negb].
      2:{ cbn. eapply St_equiv; [|exact Hg]. intros a b c _. unfold P2. split.
          - intros [A [B [z' [C E]]]]. split; [exact A|]. split; [exact B|]. exists z'. split; [lia|exact E].
          - intros [A [B [z' [C E]]]]. split; [exact A|]. split; [exact B|]. exists z'. split; [|exact E].
            destruct (Z.eq_dec z' z) as [-> |]; [|lia]. exfalso. exact (no_hit _ _ _ Ez _ E). }
      set (bz := convert_index (v2 o) z n).
      assert (Hbz : hit (v2 o) (v2 s) z bz) by (split; [exact Ez|reflexivity]).
      pose proof (hit_range (v2 o) (v2 s) z bz H2 ltac:(lia) Hbz) as Rz.
      set (P1 := fun h a b c => P2 (v2 lo) z a b c \/
         ((exists x, v0 lo <= x < v0 hi /\ hit (v0 o) (v0 s) x a) /\ (exists y, v1 lo <= y < h /\ hit (v1 o) (v1 s) y b) /\ c = bz)).
      eapply wp_weaken; [|apply (for_inv_max (fun y g => S (P1 y) g))].
      + intros g' Hg'. cbn beta in Hg'. eapply St_equiv; [|exact Hg']. intros a b c _. unfold P1, P2. split.
        * intros [[A [B [z' [C E]]]] | [A [[y [B1 B2]] -> ]]].
          -- split; [exact A|]. split; [exact B|]. exists z'. split; [lia|exact E].
          -- split; [exact A|]. split; [exists y; split; [lia|exact B2]|]. exists z. split; [lia|exact Hbz].
        * intros [A [[y [B1 B2]] [z' [C E]]]]. destruct (Z.eq_dec z' z) as [-> | Hne].
          -- right. split; [exact A|]. split; [exists y; split; [lia|exact B2]|]. destruct E as [_ <-]. reflexivity.
          -- left. split; [exact A|]. split; [exists y; split; [lia|exact B2]|]. exists z'. split; [lia|exact E].
      + eapply St_equiv; [|exact Hg]. intros a b c _. unfold P1. split; [tauto|]. intros [A | [_ [[y [Hy _]] _]]]; [exact A|lia].
      + intros y g1 Hy Hg1. destruct (bounds_inside (v1 o) (v1 s) y n) eqn:Ey; cbn [negb].
        2:{ cbn. eapply St_equiv; [|exact Hg1]. intros a b c _. unfold P1. split.
            - intros [A | [A [[y' [B1 B2]] C]]]; [left; exact A|]. right. split; [exact A|]. split; [exists y'; split; [lia|exact B2]|exact C].
            - intros [A | [A [[y' [B1 B2]] C]]]; [left; exact A|]. right. split; [exact A|]. split; [|exact C]. exists y'. split; [|exact B2].
              destruct (Z.eq_dec y' y) as [-> |]; [|lia]. exfalso. exact (no_hit _ _ _ Ey _ B2). }
        set (by_ := convert_index (v1 o) y n).
        assert (Hby : hit (v1 o) (v1 s) y by_) by (split; [exact Ey|reflexivity]).
        pose proof (hit_range (v1 o) (v1 s) y by_ H1 ltac:(lia) Hby) as Ry.
        set (P0 := fun h a b c => P1 y a b c \/ ((exists x, v0 lo <= x < h /\ hit (v0 o) (v0 s) x a) /\ b = by_ /\ c = bz)).
        eapply wp_weaken; [|apply (for_inv_max (fun x g => S (P0 x) g))].
        * intros g' Hg'. cbn beta in Hg'. eapply St_equiv; [|exact Hg']. intros a b c _. unfold P0, P1. split.
          -- intros [[A | [A [[y' [B1 B2]] C]]] | [[x [A1 A2]] [-> -> ]]].
             ++ left; exact A.
             ++ right. split; [exact A|]. split; [exists y'; split; [lia|exact B2]|exact C].
             ++ right. split; [exists x; split; [lia|exact A2]|]. split; [exists y; split; [lia|exact Hby]|reflexivity].
          -- intros [A | [[x [A1 A2]] [[y' [B1 B2]] C]]]; [left; left; exact A|].
             destruct (Z.eq_dec y' y) as [-> | Hne].
             ++ right. split; [exists x; split; [lia|exact A2]|]. split; [destruct B2 as [_ <-]; reflexivity|exact C].
             ++ left. right. split; [exists x; split; [lia|exact A2]|]. split; [exists y'; split; [lia|exact B2]|exact C].
        * eapply St_equiv; [|exact Hg1]. intros a b c _. unfold P0. split; [tauto|]. intros [A | [[x [Hx _]] _]]; [exact A|lia].
        * intros x g2 Hx Hg2. destruct (bounds_inside (v0 o) (v0 s) x n) eqn:Ex; cbn [negb].
          2:{ cbn. eapply St_equiv; [|exact Hg2]. intros a b c _. unfold P0. split.
              - intros [A | [[x' [A1 A2]] C]]; [left; exact A|]. right. split; [exists x'; split; [lia|exact A2]|exact C].
              - intros [A | [[x' [A1 A2]] C]]; [left; exact A|]. right. split; [|exact C]. exists x'. split; [|exact A2].
                destruct (Z.eq_dec x' x) as [-> |]; [|lia]. exfalso. exact (no_hit _ _ _ Ex _ A2). }
          set (bx := convert_index (v0 o) x n).
          assert (Hbx : hit (v0 o) (v0 s) x bx) by (split; [exact Ex|reflexivity]).
          pose proof (hit_range (v0 o) (v0 s) x bx H0 ltac:(lia) Hbx) as Rx.
          assert (K : exists g3, set g2 (ix (v0 s) (v1 s) bx by_ bz) nan = Ok g3 /\
            S (fun a b c => P0 x a b c \/ (a = bx /\ b = by_ /\ c = bz)) g3).
          { apply St_set; try assumption; try lia. split; [exact Rx|split; [exact Ry|exact Rz]]. }
          destruct K as [g3 [E3 Hg3]].
          cbn zeta. fold (ix (v0 s) (v1 s) bx by_ bz). rewrite E3. cbn. eapply St_equiv; [|exact Hg3]. intros a b c _. unfold P0. split.
          -- intros [[A | [[x' [A1 A2]] C]] | [-> [-> -> ]]]; [left; exact A| |].
             ++ right. split; [exists x'; split; [lia|exact A2]|exact C].
             ++ right. split; [exists x; split; [lia|exact Hbx]|split; reflexivity].
          -- intros [A | [[x' [A1 A2]] [-> -> ]]]; [left; left; exact A|]. destruct (Z.eq_dec x' x) as [-> | Hne].
             ++ right. destruct A2 as [_ <-]. repeat split.
             ++ left. right. split; [exists x'; split; [lia|exact A2]|split; reflexivity]. }
  apply wp_ok in L. destruct L as [g' [E Hg']]. exists g'. split; [exact E|].
  eapply St_equiv; [|exact Hg']. intros a b c [Ha [Hb Hc]]. unfold P2.
  rewrite (hit_covered (v0 o) (v0 s) (v0 lo) (v0 hi) a) by lia.
  rewrite (hit_covered (v1 o) (v1 s) (v1 lo) (v1 hi) b) by lia.
  destruct (Z_le_gt_dec (v2 lo) (v2 hi)).
  - rewrite Z.max_r by lia. rewrite (hit_covered (v2 o) (v2 s) (v2 lo) (v2 hi) c) by lia. reflexivity.
  - rewrite Z.max_l by lia. split.
    + intros [_ [_ [z [Hz _]]]]. lia.
    + intros [_ [_ [z [k [Hz _]]]]]. lia.
Qed.
End RemoveMain.
