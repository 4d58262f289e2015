(** Every particle stands in one array at most. *)
From Coq Require Import ZArith Lia.
From Verif Require Import Base.Res Base.ResFacts Base.Bytes Base.Num Model.Geom Model.Main Model.Gadget Model.PyGrid Model.PySheet
  Spec.Files Spec.PyArrays Spec.Segments Spec.PySheets Spec.PyOwners Proof.PySheetP.
Open Scope Z_scope.

Lemma digits n p q r p' q' r' : 0 <= p < n -> 0 <= q < n -> 0 <= r < n -> 0 <= p' < n -> 0 <= q' < n -> 0 <= r' < n ->
  p + n * q + n * n * r = p' + n * q' + n * n * r' -> p = p' /\ q = q' /\ r = r'.
Proof.
  intros Hp Hq Hr Hp' Hq' Hr' E.
  assert (E1 : n * (q + n * r) + p = n * (q' + n * r') + p') by lia.
  destruct (Z.div_mod_unique n (q + n * r) (q' + n * r') p p') as [E2 E3]; [lia|lia|exact E1|].
  destruct (Z.div_mod_unique n r r' q q') as [E4 E5]; [lia|lia|lia|]. lia.
Qed.

Lemma below n s cells x a : 0 < s -> cells * s <= n -> 0 <= x < cells -> 0 <= a < s -> 0 <= s * x + a < cells * s /\ (s * x + a) mod n = s * x + a.
Proof. intros Hs Hn Hx Ha. assert (0 <= s * x + a < cells * s) by nia. split; [assumption|]. apply Z.mod_small. lia. Qed.

Lemma index_is n s cells i x y z a b c : 0 < s -> cells * s <= n -> stands n s cells i (x, y, z, a, b, c) ->
  i = (s * x + a) + n * (s * y + b) + n * n * (s * z + c) /\
  0 <= s * x + a < cells * s /\ 0 <= s * y + b < cells * s /\ 0 <= s * z + c < cells * s.
Proof.
  intros Hs Hn ((Hx & Hy & Hz) & (Ha & Hb & Hc) & ->). unfold periodic_index.
  destruct (below n s cells x a) as [? ->]; auto. destruct (below n s cells y b) as [? ->]; auto.
  destruct (below n s cells z c) as [? ->]; auto.
Qed.

Theorem one_place n s cells i t t' : 0 < s -> cells * s <= n -> stands n s cells i t -> stands n s cells i t' -> t = t'.
Proof.
  destruct t as [[[[[x y] z] a] b] c], t' as [[[[[x' y'] z'] a'] b'] c']. intros Hs Hn H H'.
  destruct (index_is _ _ _ _ _ _ _ _ _ _ Hs Hn H) as (E & Hx & Hy & Hz).
  destruct (index_is _ _ _ _ _ _ _ _ _ _ Hs Hn H') as (E' & Hx' & Hy' & Hz').
  destruct H as (_ & (Ha & Hb & Hc) & _), H' as (_ & (Ha' & Hb' & Hc') & _).
  destruct (digits n (s * x + a) (s * y + b) (s * z + c) (s * x' + a') (s * y' + b') (s * z' + c')) as (E1 & E2 & E3); try lia.
  destruct (Z.div_mod_unique s x x' a a'); [lia|lia|lia|].
  destruct (Z.div_mod_unique s y y' b b'); [lia|lia|lia|].
  destruct (Z.div_mod_unique s z z' c c'); [lia|lia|lia|]. congruence.
Qed.

Theorem some_place n s cells i : 0 < s -> 0 < cells -> n = cells * s -> 0 <= i < n * n * n -> exists t, stands n s cells i t.
Proof.
  intros Hs Hc Hn Hi. assert (Hn0 : 0 < n) by nia.
  set (p := i mod n). set (q := i / n mod n). set (r := i / n / n).
  assert (Hp : 0 <= p < n) by (apply Z.mod_pos_bound; lia). assert (Hq : 0 <= q < n) by (apply Z.mod_pos_bound; lia).
  assert (E : i = p + n * q + n * n * r).
  { unfold p, q, r. pose proof (Z.div_mod i n ltac:(lia)). pose proof (Z.div_mod (i / n) n ltac:(lia)). nia. }
  assert (Hr : 0 <= r < n).
  { unfold r. split; [apply Z.div_pos; [apply Z.div_pos; lia|lia]|]. apply Z.div_lt_upper_bound; [lia|]. apply Z.div_lt_upper_bound; lia. }
  assert (K : forall m, 0 <= m < n -> 0 <= m / s < cells /\ 0 <= m mod s < s /\ s * (m / s) + m mod s = m).
  { intros m Hm. pose proof (Z.div_mod m s ltac:(lia)). split; [split; [apply Z.div_pos; lia|apply Z.div_lt_upper_bound; lia]|].
    split; [apply Z.mod_pos_bound; lia|lia]. }
  destruct (K p Hp) as (? & ? & Ep), (K q Hq) as (? & ? & Eq), (K r Hr) as (? & ? & Er).
  exists (p / s, q / s, r / s, p mod s, q mod s, r mod s). split; [auto|]. split; [auto|].
  unfold periodic_index. rewrite Ep, Eq, Er, !Z.mod_small by assumption. exact E.
Qed.

Theorem unique_thm n s cells : 0 < s -> 0 < cells -> cells * s <= n < cells * s + cells ->
  (forall i t t', stands n s cells i t -> stands n s cells i t' -> t = t') /\
  (n = cells * s -> forall i, 0 <= i < n * n * n -> exists t, stands n s cells i t).
Proof.
  intros Hs Hc Hn. split.
  - intros i t t'. apply one_place; lia.
  - intros E i Hi. now apply some_place.
Qed.

Theorem lost_thm n s cells p q r : 0 < s -> cells * s <= n < cells * s + cells -> 0 <= p < n -> 0 <= q < n -> 0 <= r < n ->
  cells * s <= p \/ cells * s <= q \/ cells * s <= r -> ~ exists t, stands n s cells (cube_index n p q r) t.
Proof.
  intros Hs Hn Hp Hq Hr Ho [[[[[[x y] z] a] b] c] H].
  destruct (index_is n s cells _ x y z a b c Hs ltac:(lia) H) as (E & Hx & Hy & Hz). unfold cube_index in E.
  destruct (digits n p q r (s * x + a) (s * y + b) (s * z + c)); lia.
Qed.

Theorem uneven_thm (F : Type) (NF : Num F) (enc : F -> Z) d sys hd n s cells w xs vs x y z sg p :
  (forall v, bits 32 (enc v)) -> catalog_typed hd -> 0 < cells -> 0 < s -> cells * s <= n < cells * s + cells ->
  (n + 1) * (n + 1) * (n + 1) < 2 ^ 63 -> zlen xs = n * n * n -> zlen vs = n * n * n ->
  0 <= x < cells -> 0 <= y < cells -> 0 <= z < cells ->
  python_reads enc d sys hd n cells w xs vs x y z sg p -> cells * s < n ->
  sf_file_cells p * sf_segment_width p <> sf_count_width p /\
  forall i j k, 0 <= i < n -> 0 <= j < n -> 0 <= k < n -> cells * s <= i \/ cells * s <= j \/ cells * s <= k ->
    ~ exists t, stands n s cells (cube_index n i j k) t.
Proof.
  intros He Hh Hc Hs Hn Hb Hxs Hvs Hx Hy Hz HR Hlt.
  destruct (sheets_thm enc d sys hd n s cells w xs vs x y z He Hh Hc Hs Hn Hb Hxs Hvs Hx Hy Hz) as [_ H].
  destruct (H sg p HR) as [(_ & _ & E1 & E2 & _ & _ & _ & E3 & _) _]. split.
  - rewrite E1, E2, E3. lia.
  - intros i j k Hi Hj Hk. now apply lost_thm.
Qed.
