(** Workspaces, quantities, powers of two, finalised buffers, box cells. *)
From Coq Require Import ZArith List Bool Reals Lra Lia ZifyBool ZifyNat String.
From Flocq Require Import Core.Raux.
From Verif Require Import Base.Res Base.ResFacts Base.Num Base.IEEE Base.Convert Model.Geom Model.GridDeriv Model.Density Model.Box Model.Render.
From Verif Require Import Spec.FieldDefs Spec.Workspace.
Import ListNotations.
Open Scope Z_scope.

(** ** Slices *)
Lemma reslice_ok {A} (s : gslice A) n : 0 <= n <= zlen (back s) -> reslice s 0 n = Ok (GS (back s) n).
Proof.
  intros H. unfold reslice. replace (0 <? 0) with false by lia. replace (n <? 0) with false by lia.
  replace (zlen (back s) <? n) with false by lia. cbn [orb Z.to_nat skipn]. now rewrite Z.sub_0_r.
Qed.
Lemma reslice_inv {A} (s s' : gslice A) n : reslice s 0 n = Ok s' -> back s' = back s /\ vis s' = n /\ 0 <= n <= zlen (back s).
Proof.
  unfold reslice. destruct ((0 <? 0) || (n <? 0) || (zlen (back s) <? n)) eqn:E; [discriminate|].
  intros H. injection H as <-. cbn [back vis Z.to_nat skipn]. split; [reflexivity|]. lia.
Qed.
Lemma gset_ok {A} (s : gslice A) i v : 0 <= i < vis s -> vis s <= zlen (back s) ->
  gset s i v = Ok (GS (upd (back s) (Z.to_nat i) v) (vis s)).
Proof.
  intros H1 H2. unfold gset. replace (i <? 0) with false by lia. replace (vis s <=? i) with false by lia.
  cbn [orb]. rewrite set_ok by lia. reflexivity.
Qed.
Lemma gset_inv {A} (s s' : gslice A) i v : gset s i v = Ok s' -> vis s' = vis s /\ zlen (back s') = zlen (back s).
Proof.
  unfold gset. destruct ((i <? 0) || (vis s <=? i)); [discriminate|].
  destruct (Z_lt_le_dec i 0); [rewrite set_panic by lia; discriminate|].
  destruct (Z_lt_le_dec i (zlen (back s))); [|rewrite set_panic by lia; discriminate].
  rewrite set_ok by lia. cbn [bind]. intros H; injection H as <-. cbn. now rewrite zlen_upd.
Qed.

Lemma firstn_upd_repeat {A} (l : list A) k v : (k < Datatypes.length l)%nat ->
  firstn k l = repeat v k -> firstn (Datatypes.S k) (upd l k v) = repeat v (Datatypes.S k).
Proof.
  revert k; induction l as [|a l IH]; intros k H E; cbn [Datatypes.length] in H; [lia|].
  destruct k as [|k]; [reflexivity|]. cbn [firstn repeat upd] in E |- *. injection E as E1 E2.
  f_equal; [auto|]. apply IH; [lia|exact E2].
Qed.

Lemma clear_loop {A} (s : gslice A) v m : 0 <= m <= vis s -> vis s <= zlen (back s) ->
  exists s', for_ 0 m (fun i s => gset s i v) s = Ok s' /\ vis s' = vis s /\ zlen (back s') = zlen (back s) /\
    firstn (Z.to_nat m) (back s') = repeat v (Z.to_nat m).
Proof.
  intros H1 H2. apply wp_ok.
  apply (for_inv (fun m s' => vis s' = vis s /\ zlen (back s') = zlen (back s) /\ firstn (Z.to_nat m) (back s') = repeat v (Z.to_nat m))); [lia| |].
  - auto.
  - intros i s1 Hi (K1 & K2 & K3). apply wp_ok. rewrite gset_ok by lia. eexists. split; [reflexivity|].
    cbn [vis back]. rewrite zlen_upd. split; [auto|]. split; [auto|].
    replace (Z.to_nat (i + 1)) with (Datatypes.S (Z.to_nat i)) by lia. apply firstn_upd_repeat; [unfold zlen in K2, H2; lia|auto].
Qed.

Section Clean.
Context {D : Type} {ND : Num D}.

Definition cap_ok (len : Z) (b : buffer D) : Prop :=
  match b with
  | SBuf _ s => zlen (back s) = len
  | VBuf _ s m => zlen (back s) = len /\ zlen (back m) = len
  end.

Lemma for_pair {A B} (n : Z) (f : Z -> A -> res A) (g : Z -> B -> res B) a b a' b' : 0 <= n ->
  for_ 0 n f a = Ok a' -> for_ 0 n g b = Ok b' ->
  for_ 0 n (fun i s => let '(a, b) := s in bind (f i a) (fun a => bind (g i b) (fun b => Ok (a, b)))) (a, b) = Ok (a', b').
Proof.
  intros Hn. unfold for_. generalize (Z.to_nat (n - 0)) as m. intros m. revert a b. generalize 0.
  induction m as [|m IH]; intros lo a b Ha Hb; cbn [for_n] in *.
  - injection Ha as <-. injection Hb as <-. reflexivity.
  - destruct (f lo a) as [a1| | |]; cbn [bind] in *; try discriminate.
    destruct (g lo b) as [b1| | |]; cbn [bind] in *; try discriminate. apply IH; auto.
Qed.

Lemma prepare_ok len b n : cap_ok len b -> 0 <= n <= len ->
  exists b', prepare b n = Ok b' /\ cap_ok len b' /\ clean b' n.
Proof.
  intros HC Hn. unfold prepare. destruct b as [q s|q s m]; cbn [cap_ok buf_slice] in *.
  - rewrite reslice_ok by lia. cbn [bind buf_clear vis].
    destruct (clear_loop (GS (back s) n) (nofZ 0) n) as (s' & E1 & E2 & E3 & E4); cbn [vis back] in *; try lia.
    rewrite E1. cbn [bind]. eexists. split; [reflexivity|]. cbn [cap_ok clean]. split; [lia|]. split; [auto|].
    unfold visible. rewrite E2. exact E4.
  - destruct HC as [H1 H2]. rewrite !reslice_ok by lia. cbn [bind buf_clear vis].
    destruct (clear_loop (GS (back s) n) zero3 n) as (s' & E1 & E2 & E3 & E4); cbn [vis back] in *; try lia.
    destruct (clear_loop (GS (back m) n) 0 n) as (m' & K1 & K2 & K3 & K4); cbn [vis back] in *; try lia.
    rewrite (for_pair n _ _ _ _ _ _ ltac:(lia) E1 K1). cbn [bind].
    eexists. split; [reflexivity|]. cbn [cap_ok clean]. split; [lia|]. split; [auto|]. split; [auto|].
    unfold visible. rewrite E2, K2. auto.
Qed.

Lemma prepare_inv len b n b' : cap_ok len b -> prepare b n = Ok b' -> cap_ok len b'.
Proof.
  intros HC H. assert (Hn : 0 <= n <= len).
  { unfold prepare in H. destruct b as [q s|q s m]; cbn [buf_slice cap_ok] in *.
    - destruct (reslice s 0 n) eqn:E; [|discriminate..]. apply reslice_inv in E. lia.
    - destruct (reslice s 0 n) eqn:E; [|discriminate..]. apply reslice_inv in E. lia. }
  destruct (prepare_ok len b n HC Hn) as (b1 & E & K & _). congruence.
Qed.

Lemma history_cap q len b : history q len b -> cap_ok len b.
Proof.
  induction 1 as [b H|b n b' _ IH H|k s i v s' _ IH H|k s m i v s' _ IH H|k s m i v m' _ IH H].
  - unfold new_buffer, gmake in H. destruct (Z.ltb_spec len 0).
    { destruct (_ || _); [discriminate|]. destruct (_ || _ || _); discriminate. }
    destruct (_ || _).
    { cbn [bind] in H. injection H as <-. cbn. unfold zlen. rewrite repeat_length. lia. }
    destruct (_ || _ || _); [|discriminate]. cbn [bind] in H. injection H as <-. cbn. unfold zlen. rewrite !repeat_length. lia.
  - eapply prepare_inv; eauto.
  - apply gset_inv in H. cbn in *. lia.
  - apply gset_inv in H. cbn in *. lia.
  - apply gset_inv in H. cbn in *. lia.
Qed.

Theorem workspace_clean q len b n : history q len b -> 0 <= n <= len ->
  exists b', prepare b n = Ok b' /\ clean b' n /\ buf_length b' = n.
Proof.
  intros H Hn. destruct (prepare_ok len b n (history_cap _ _ _ H) Hn) as (b' & E & _ & K).
  exists b'. split; [auto|]. split; [auto|]. destruct b'; cbn in *; tauto.
Qed.
End Clean.

Theorem capacity_enough {B H} (boxes : list B) (hds : list H) (meets : B -> H -> bool) (over : B -> H -> overlap) b h :
  In b boxes -> In h hds -> meets b h = true -> buffer_size (over b h) <= max_buf_size boxes hds meets over.
Proof.
  intros Hb Hh HM. unfold max_buf_size.
  set (inner := fun m h => fold_left (fun m b => if meets b h then (if buffer_size (over b h) >? m then buffer_size (over b h) else m) else m) boxes m).
  assert (I1 : forall h bs m, m <= fold_left (fun m b => if meets b h then (if buffer_size (over b h) >? m then buffer_size (over b h) else m) else m) bs m).
  { intros h' bs. induction bs as [|b' bs IH]; intros m; cbn [fold_left]; [lia|].
    etransitivity; [|apply IH]. destruct (meets b' h'); [|lia]. destruct (buffer_size (over b' h') >? m) eqn:E; lia. }
  assert (I2 : forall bs m, In b bs -> buffer_size (over b h) <= fold_left (fun m b => if meets b h then (if buffer_size (over b h) >? m then buffer_size (over b h) else m) else m) bs m).
  { intros bs. induction bs as [|b' bs IH]; intros m [].
    - subst b'. cbn [fold_left]. rewrite HM. etransitivity; [|apply I1]. destruct (buffer_size (over b h) >? m) eqn:E; lia.
    - cbn [fold_left]. apply IH; auto. }
  assert (I3 : forall hs m, m <= fold_left inner hs m).
  { intros hs. induction hs as [|h' hs IH]; intros m; cbn [fold_left]; [lia|]. etransitivity; [|apply IH]. apply I1. }
  change (buffer_size (over b h) <= fold_left inner hds 0). generalize 0. revert Hh.
  induction hds as [|h' hs IH]; intros [] m; cbn [fold_left].
  - subst h'. etransitivity; [|apply I3]. apply I2; auto.
  - apply IH; auto.
Qed.

(** ** Powers of two *)
Lemma is_pow_two_loop_ok fuel : forall x, (0 < x -> x <= 2 ^ (Z.of_nat fuel - 1)) -> (0 < fuel)%nat ->
  exists b, is_pow_two_loop fuel x = Ok b /\ (b = true <-> power_of_two x).
Proof.
  induction fuel as [|fuel IH]; intros x Hx Hf; [lia|]. cbn [is_pow_two_loop].
  replace (Z.land x 1) with (x mod 2) by (change 1 with (Z.ones 1); now rewrite Z.land_ones by lia).
  rewrite Z.shiftr_div_pow2 by lia. change (2 ^ 1) with 2.
  destruct (Z.eqb_spec (x mod 2) 0) as [E|E]; cbn [andb].
  - rewrite Z.gtb_ltb. destruct (Z.ltb_spec 0 x) as [H|H].
    + assert (Hx2 : x = 2 * (x / 2)) by (pose proof (Z.div_mod x 2); lia).
      assert (0 < x / 2) by lia.
      destruct fuel as [|fuel]; [cbn in Hx; lia|].
      assert (Hp : 2 ^ (Z.of_nat (Datatypes.S (Datatypes.S fuel)) - 1) = 2 * 2 ^ (Z.of_nat (Datatypes.S fuel) - 1)).
      { rewrite <- Z.pow_succ_r by lia. f_equal. lia. }
      destruct (IH (x / 2)) as (b & E1 & E2); [lia|lia|].
      exists b. split; [exact E1|]. rewrite E2. split; intros (k & Hk & Ek).
      * exists (k + 1). split; [lia|]. rewrite Z.pow_add_r by lia. lia.
      * destruct (Z.eq_dec k 0) as [->|Hk0]; [rewrite Ek in E; discriminate|].
        exists (k - 1). split; [lia|]. replace k with (k - 1 + 1) in Ek by lia. rewrite Z.pow_add_r in Ek by lia. lia.
    + exists (x =? 1). split; [reflexivity|]. split; [lia|]. intros (k & Hk & Ek). pose proof (Z.pow_pos_nonneg 2 k). lia.
  - exists (x =? 1). split; [reflexivity|]. split.
    + intros K. exists 0. split; [lia|]. apply Z.eqb_eq in K. auto.
    + intros (k & Hk & Ek). destruct (Z.eq_dec k 0) as [->|Hk0]; [subst; reflexivity|]. exfalso. apply E.
      replace k with (Z.succ (k - 1)) in Ek by lia. rewrite Z.pow_succ_r in Ek by lia. rewrite Ek, Z.mul_comm. apply Z.mod_mul. lia.
Qed.

Theorem is_pow_two_ok x : exists b, is_pow_two x = Ok b /\ (b = true <-> power_of_two x).
Proof.
  apply is_pow_two_loop_ok; [|lia]. intros Hx. pose proof (Z.log2_up_nonneg x).
  replace (Z.of_nat (Datatypes.S (Z.to_nat (Z.log2_up x))) - 1) with (Z.log2_up x) by lia.
  destruct (Z.eq_dec x 1) as [->|]; [reflexivity|]. pose proof (Z.log2_up_spec x). lia.
Qed.

Theorem subsample_ok skip len :
  (power_of_two skip -> subsample skip len = Ok len) /\ (~ power_of_two skip -> subsample skip len = Fatal).
Proof.
  unfold subsample. destruct (is_pow_two_ok skip) as (b & -> & H). cbn [bind]. split; intros K.
  - apply H in K. now rewrite K.
  - destruct b; [|reflexivity]. destruct K. now apply H.
Qed.
Lemma subsample_bad :
  subsample manager_skip0 3 = Ok 3 /\ subsample 3 4 = Fatal /\ ~ power_of_two 3 /\ power_of_two 4.
Proof.
  split; [reflexivity|]. split; [reflexivity|]. split; [|exists 2; split; [lia|reflexivity]].
  destruct (is_pow_two_ok 3) as (b & E & H). intros K. apply H in K. subst b. discriminate E.
Qed.

(** ** Quantities *)
Lemma from_string_unknown s : snd (quantity_from_string s) = true <->
  In s ["Density"; "DensityGradient"; "Velocity"; "VelocityDivergence"; "VelocityCurl"]%string.
Proof.
  unfold quantity_from_string.
  repeat match goal with |- context [String.eqb s ?c] => destruct (String.eqb_spec s c); [subst; cbn; tauto|] end.
  cbn. split; [discriminate|]. intros [K|[K|[K|[K|[K|[]]]]]]; congruence.
Qed.
Lemma quantity_round q : 0 < q < 5 -> exists s, quantity_string q = Ok s /\ quantity_from_string s = (q, true).
Proof.
  intros H. assert (q = 1 \/ q = 2 \/ q = 3 \/ q = 4) as [->|[->|[->| ->]]] by lia; eexists; split; reflexivity.
Qed.

(** ** Finalised buffers *)
Lemma velocity_short {D F} {ND : Num D} {NF : Num F} (cvt : D -> F) (vecs : list (vec3 D)) num :
  0 < zlen vecs < 30 -> finalized_velocity cvt vecs num = Panic.
Proof.
  intros H. unfold finalized_velocity. rewrite for_step by lia.
  destruct vecs as [|v vecs]; [cbn in H; lia|].
  assert (E : get (v :: vecs) 0 = Ok v) by reflexivity. rewrite E. cbn [bind].
  unfold quot at 1. cbn [Z.eqb]. rewrite Z.quot_small by lia. cbn [bind]. reflexivity.
Qed.

