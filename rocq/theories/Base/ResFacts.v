(** Lemmas about checked access, loops and postconditions. *)
From Coq Require Import ZArith List Bool Lia Permutation.
From Coq Require Import ZifyBool ZifyNat.
From Verif Require Import Base.Res.
Import ListNotations.
Open Scope Z_scope.

Ltac Zify.zify_post_hook ::= Z.div_mod_to_equations.

Lemma wp_ok {A} (r : res A) P : wp r P <-> exists a, r = Ok a /\ P a.
Proof.
  destruct r; simpl; split; try tauto; try (intros [a' [H _]]; discriminate).
  - intros; eauto.
  - intros [a' [H H']]; inversion H; subst; auto.
Qed.

Lemma wp_bind {A B} (r : res A) (k : A -> res B) P :
  wp r (fun a => wp (k a) P) -> wp (bind r k) P.
Proof. destruct r; simpl; auto. Qed.

Lemma wp_bind_iff {A B} (r : res A) (k : A -> res B) P :
  wp (bind r k) P <-> wp r (fun a => wp (k a) P).
Proof. destruct r; simpl; tauto. Qed.

Lemma wp_mono {A} (r : res A) (P Q : A -> Prop) :
  wp r P -> (forall a, P a -> Q a) -> wp r Q.
Proof. destruct r; simpl; auto. Qed.

Lemma wp_conj {A} (r : res A) (P Q : A -> Prop) :
  wp r P -> wp r Q -> wp r (fun a => P a /\ Q a).
Proof. destruct r; simpl; auto. Qed.

Lemma zlen_nonneg {A} (l : list A) : 0 <= zlen l.
Proof. unfold zlen; lia. Qed.

Lemma zlen_nil {A} : zlen (@nil A) = 0.
Proof. reflexivity. Qed.

Lemma zlen_cons {A} (a : A) l : zlen (a :: l) = 1 + zlen l.
Proof. unfold zlen; simpl length; lia. Qed.

Lemma zlen_app {A} (l1 l2 : list A) : zlen (l1 ++ l2) = zlen l1 + zlen l2.
Proof. unfold zlen; rewrite app_length; lia. Qed.

Lemma length_upd {A} (l : list A) n v : length (upd l n v) = length l.
Proof. revert n; induction l; destruct n; simpl; auto. Qed.

Lemma zlen_upd {A} (l : list A) n v : zlen (upd l n v) = zlen l.
Proof. unfold zlen; now rewrite length_upd. Qed.

Lemma nth_error_upd_eq {A} (l : list A) n v :
  (n < length l)%nat -> nth_error (upd l n v) n = Some v.
Proof.
  revert n; induction l; intros [|n] H; simpl in *; try lia; auto.
  apply IHl; lia.
Qed.

Lemma nth_error_upd_neq {A} (l : list A) n m v :
  n <> m -> nth_error (upd l n v) m = nth_error l m.
Proof.
  revert n m; induction l; intros [|n] [|m] H; simpl in *; try lia; auto.
Qed.

Lemma nth_upd_eq {A} (l : list A) n v d :
  (n < length l)%nat -> nth n (upd l n v) d = v.
Proof.
  revert n; induction l; intros [|n] H; simpl in *; try lia; auto.
  apply IHl; lia.
Qed.

Lemma nth_upd_neq {A} (l : list A) n m v d :
  n <> m -> nth m (upd l n v) d = nth m l d.
Proof.
  revert n m; induction l; intros [|n] [|m] H; simpl in *; try lia; auto.
Qed.

(** Total view of a slice: element at [i] (default only out of range). *)
Definition zn {A} (d : A) (l : list A) (i : Z) : A := nth (Z.to_nat i) l d.

Lemma get_ok {A} (d : A) (l : list A) i :
  0 <= i < zlen l -> get l i = Ok (zn d l i).
Proof.
  intros H. unfold get, zn, zlen in *.
  destruct (Z.ltb_spec i 0); [lia|].
  destruct (nth_error l (Z.to_nat i)) eqn:E.
  - now rewrite (nth_error_nth _ _ _ E).
  - apply nth_error_None in E. lia.
Qed.

Lemma get_panic {A} (l : list A) i :
  ~ (0 <= i < zlen l) -> get l i = Panic.
Proof.
  intros H. unfold get, zlen in *.
  destruct (Z.ltb_spec i 0); [auto|].
  destruct (nth_error l (Z.to_nat i)) eqn:E; auto.
  assert (nth_error l (Z.to_nat i) <> None) as N by congruence.
  apply nth_error_Some in N. lia.
Qed.

Lemma get_inv {A} (l : list A) i a : get l i = Ok a -> 0 <= i < zlen l.
Proof.
  intros H. destruct (Z_lt_dec i 0); [rewrite get_panic in H by lia; discriminate|].
  destruct (Z_lt_dec i (zlen l)); [lia|].
  rewrite get_panic in H by lia; discriminate.
Qed.

Lemma set_ok {A} (l : list A) i v :
  0 <= i < zlen l -> set l i v = Ok (upd l (Z.to_nat i) v).
Proof.
  intros H. unfold set. destruct (Z.ltb_spec i 0), (Z.leb_spec (zlen l) i); simpl; auto; lia.
Qed.

Lemma set_panic {A} (l : list A) i v :
  ~ (0 <= i < zlen l) -> set l i v = Panic.
Proof.
  intros H. unfold set. destruct (Z.ltb_spec i 0), (Z.leb_spec (zlen l) i); simpl; auto; lia.
Qed.

Lemma zn_upd {A} (d : A) l i j v :
  0 <= i < zlen l -> 0 <= j ->
  zn d (upd l (Z.to_nat i) v) j = if j =? i then v else zn d l j.
Proof.
  intros H J. unfold zn, zlen in *. destruct (Z.eqb_spec j i).
  - subst. apply nth_upd_eq. lia.
  - apply nth_upd_neq. lia.
Qed.

Lemma zn_upd_eq {A} (d : A) l i v :
  0 <= i < zlen l -> zn d (upd l (Z.to_nat i) v) i = v.
Proof. intros. rewrite zn_upd by lia. now rewrite Z.eqb_refl. Qed.

Lemma zn_upd_neq {A} (d : A) l i j v :
  0 <= i < zlen l -> 0 <= j -> j <> i ->
  zn d (upd l (Z.to_nat i) v) j = zn d l j.
Proof. intros. rewrite zn_upd by lia. destruct (Z.eqb_spec j i); congruence. Qed.

Lemma wp_get {A} (d : A) (l : list A) i (P : A -> Prop) :
  0 <= i < zlen l -> P (zn d l i) -> wp (get l i) P.
Proof. intros H HP. now rewrite (get_ok d) by auto. Qed.

Lemma wp_set {A} (l : list A) i v (P : list A -> Prop) :
  0 <= i < zlen l -> P (upd l (Z.to_nat i) v) -> wp (set l i v) P.
Proof. intros H HP. now rewrite set_ok by auto. Qed.

Lemma list_ext {A} (d : A) (l1 l2 : list A) :
  zlen l1 = zlen l2 -> (forall i, 0 <= i < zlen l1 -> zn d l1 i = zn d l2 i) -> l1 = l2.
Proof.
  intros HL H. apply (nth_ext _ _ d d).
  - unfold zlen in HL; lia.
  - intros n Hn. specialize (H (Z.of_nat n)). unfold zn, zlen in H.
    rewrite Nat2Z.id in H. apply H. lia.
Qed.

Lemma upd_upd_comm {A} (l : list A) i j x y :
  i <> j -> upd (upd l i x) j y = upd (upd l j y) i x.
Proof.
  revert i j; induction l; intros [|i] [|j] H; simpl; auto; try congruence.
  f_equal. apply IHl. congruence.
Qed.

Lemma upd_same {A} (d : A) (l : list A) i :
  upd l i (nth i l d) = l.
Proof. revert i; induction l; intros [|i]; simpl; auto. now rewrite IHl. Qed.

Lemma upd_split {A} (l : list A) i v :
  (i < length l)%nat -> upd l i v = firstn i l ++ v :: skipn (S i) l.
Proof.
  revert i; induction l; intros [|i] H; simpl in *; try lia; auto.
  f_equal. apply IHl. lia.
Qed.

Lemma nth_split_eq {A} (d : A) (l : list A) i :
  (i < length l)%nat -> l = firstn i l ++ nth i l d :: skipn (S i) l.
Proof.
  revert i; induction l; intros [|i] H; simpl in *; try lia; auto.
  f_equal. apply IHl. lia.
Qed.

(** Writing [v] at [i] and the old element at a place holding [v] is a
    permutation. *)
Lemma upd_perm {A} (d : A) (l : list A) i v :
  (i < length l)%nat -> Permutation (nth i l d :: upd l i v) (v :: l).
Proof.
  intros H. rewrite upd_split by auto. rewrite (nth_split_eq d l i) at 4 by auto.
  etransitivity.
  - apply perm_skip. symmetry. apply Permutation_middle.
  - etransitivity; [apply perm_swap|]. apply perm_skip. apply Permutation_middle.
Qed.

Lemma swap_perm_nat {A} (d : A) (l : list A) i j :
  (i < length l)%nat -> (j < length l)%nat ->
  Permutation l (upd (upd l i (nth j l d)) j (nth i l d)).
Proof.
  intros Hi Hj. destruct (Nat.eq_dec i j) as [->|N].
  - rewrite (upd_same d). replace (upd l j (nth j l d)) with l; auto.
    symmetry; apply upd_same.
  - apply (Permutation_cons_inv (a := nth j l d)).
    pose proof (upd_perm d (upd l i (nth j l d)) j (nth i l d)) as H1.
    rewrite length_upd in H1. specialize (H1 Hj).
    rewrite nth_upd_neq in H1 by auto.
    etransitivity; [|symmetry; exact H1].
    symmetry. apply (upd_perm d l i (nth j l d) Hi).
Qed.

Definition swapped {A} (d : A) (l : list A) i j : list A :=
  upd (upd l (Z.to_nat i) (zn d l j)) (Z.to_nat j) (zn d l i).

Lemma swap_ok {A} (d : A) (l : list A) i j :
  0 <= i < zlen l -> 0 <= j < zlen l -> swap l i j = Ok (swapped d l i j).
Proof.
  intros Hi Hj. unfold swap, swapped.
  rewrite !(get_ok d) by auto. simpl. rewrite set_ok by auto. simpl.
  rewrite set_ok; auto. now rewrite zlen_upd.
Qed.

Lemma zlen_swapped {A} (d : A) l i j : zlen (swapped d l i j) = zlen l.
Proof. unfold swapped. now rewrite !zlen_upd. Qed.

Lemma swapped_perm {A} (d : A) l i j :
  0 <= i < zlen l -> 0 <= j < zlen l -> Permutation l (swapped d l i j).
Proof. intros. unfold swapped, zn, zlen in *. apply swap_perm_nat; lia. Qed.

Lemma zn_swapped {A} (d : A) l i j k :
  0 <= i < zlen l -> 0 <= j < zlen l -> 0 <= k ->
  zn d (swapped d l i j) k =
  if k =? j then zn d l i else if k =? i then zn d l j else zn d l k.
Proof.
  intros. unfold swapped. rewrite zn_upd by (rewrite ?zlen_upd; lia).
  destruct (Z.eqb_spec k j); auto. rewrite zn_upd by lia. auto.
Qed.

Lemma wp_swap {A} (d : A) l i j (P : list A -> Prop) :
  0 <= i < zlen l -> 0 <= j < zlen l -> P (swapped d l i j) -> wp (swap l i j) P.
Proof. intros. now rewrite (swap_ok d) by auto. Qed.

(** ** Loops *)

Lemma for_n_inv {S} (I : Z -> S -> Prop) (body : Z -> S -> res S) n :
  forall lo s, I lo s ->
  (forall i s, lo <= i < lo + Z.of_nat n -> I i s -> wp (body i s) (I (i + 1))) ->
  wp (for_n n lo body s) (I (lo + Z.of_nat n)).
Proof.
  induction n; intros lo s H0 HB; simpl for_n.
  - replace (lo + Z.of_nat 0) with lo by lia. exact H0.
  - apply wp_bind. eapply wp_mono; [apply HB; [lia|auto]|].
    intros s' Hs'. replace (lo + Z.of_nat (Datatypes.S n)) with (lo + 1 + Z.of_nat n) by lia.
    apply IHn; auto. intros i s'' Hi. apply HB. lia.
Qed.

Lemma for_inv {S} (I : Z -> S -> Prop) lo hi (body : Z -> S -> res S) s :
  lo <= hi -> I lo s ->
  (forall i s, lo <= i < hi -> I i s -> wp (body i s) (I (i + 1))) ->
  wp (for_ lo hi body s) (I hi).
Proof.
  intros HL H0 HB. unfold for_.
  replace hi with (lo + Z.of_nat (Z.to_nat (hi - lo))) at 2 by lia.
  apply for_n_inv; auto. intros i s' Hi. apply HB. lia.
Qed.

Lemma for_empty {S} lo hi (body : Z -> S -> res S) s :
  hi <= lo -> for_ lo hi body s = Ok s.
Proof. intros. unfold for_. replace (Z.to_nat (hi - lo)) with O by lia. reflexivity. Qed.

Lemma for_step {S} lo hi (body : Z -> S -> res S) s :
  lo < hi -> for_ lo hi body s = bind (body lo s) (for_ (lo + 1) hi body).
Proof.
  intros. unfold for_. replace (Z.to_nat (hi - lo)) with (Datatypes.S (Z.to_nat (hi - (lo + 1)))) by lia.
  reflexivity.
Qed.

Lemma for_n_ext {S} n (b1 b2 : Z -> S -> res S) lo s :
  (forall i s, lo <= i < lo + Z.of_nat n -> b1 i s = b2 i s) ->
  for_n n lo b1 s = for_n n lo b2 s.
Proof.
  revert lo s; induction n; intros lo s H; simpl; auto.
  rewrite H by lia. destruct (b2 lo s); simpl; auto. apply IHn. intros; apply H; lia.
Qed.

Lemma for_ext {S} (b1 b2 : Z -> S -> res S) lo hi s :
  (forall i s, lo <= i < hi -> b1 i s = b2 i s) -> for_ lo hi b1 s = for_ lo hi b2 s.
Proof. intros H. apply for_n_ext. intros; apply H; lia. Qed.

Lemma for_n_app {S} n m (b : Z -> S -> res S) lo s :
  for_n (n + m) lo b s = bind (for_n n lo b s) (for_n m (lo + Z.of_nat n) b).
Proof.
  revert lo s; induction n; intros lo s; cbn [for_n Nat.add].
  - cbn [bind]. replace (lo + Z.of_nat 0) with lo by lia. reflexivity.
  - destruct (b lo s); simpl; auto. rewrite IHn.
    replace (lo + 1 + Z.of_nat n) with (lo + Z.of_nat (Datatypes.S n)) by lia. reflexivity.
Qed.

Lemma for_split {S} lo mid hi (b : Z -> S -> res S) s :
  lo <= mid <= hi -> for_ lo hi b s = bind (for_ lo mid b s) (for_ mid hi b).
Proof.
  intros H. unfold for_.
  replace (Z.to_nat (hi - lo)) with (Z.to_nat (mid - lo) + Z.to_nat (hi - mid))%nat by lia.
  rewrite for_n_app. replace (lo + Z.of_nat (Z.to_nat (mid - lo))) with mid by lia. reflexivity.
Qed.

Lemma down_n_inv {S} (I : Z -> S -> Prop) (body : Z -> S -> res S) n :
  forall hi s, I hi s ->
  (forall i s, hi - Z.of_nat n < i <= hi -> I i s -> wp (body i s) (I (i - 1))) ->
  wp (down_n n hi body s) (I (hi - Z.of_nat n)).
Proof.
  induction n; intros hi s H0 HB; simpl down_n.
  - replace (hi - Z.of_nat 0) with hi by lia. exact H0.
  - apply wp_bind. eapply wp_mono; [apply HB; [lia|auto]|].
    intros s' Hs'. replace (hi - Z.of_nat (Datatypes.S n)) with (hi - 1 - Z.of_nat n) by lia.
    apply IHn; auto. intros i s'' Hi. apply HB. lia.
Qed.

Lemma for_down_inv {S} (I : Z -> S -> Prop) hi lo (body : Z -> S -> res S) s :
  lo - 1 <= hi -> I hi s ->
  (forall i s, lo <= i <= hi -> I i s -> wp (body i s) (I (i - 1))) ->
  wp (for_down hi lo body s) (I (lo - 1)).
Proof.
  intros HL H0 HB. unfold for_down.
  replace (lo - 1) with (hi - Z.of_nat (Z.to_nat (hi - lo + 1))) by lia.
  apply down_n_inv; auto. intros i s' Hi. apply HB. lia.
Qed.

(** Loop rule with a decreasing natural-number measure. *)
Lemma loop_inv {S A} (I : S -> Prop) (Q : A -> Prop) (measure : S -> nat)
      (body : S -> res (S + A)) :
  (forall s, I s ->
     wp (body s) (fun r => match r with
                           | inl s' => I s' /\ (measure s' < measure s)%nat
                           | inr a => Q a
                           end)) ->
  forall fuel s, I s -> (measure s < fuel)%nat -> wp (loop fuel body s) Q.
Proof.
  intros HB fuel. induction fuel; intros s HI HM; [lia|].
  simpl. apply wp_bind. eapply wp_mono; [apply HB; auto|].
  intros [s'|a]; simpl; auto. intros [HI' HM']. apply IHfuel; auto. lia.
Qed.

Lemma zlen_firstn {A} (l : list A) k :
  0 <= k <= zlen l -> zlen (firstn (Z.to_nat k) l) = k.
Proof. unfold zlen. rewrite firstn_length. lia. Qed.

Lemma zlen_skipn {A} (l : list A) k :
  0 <= k <= zlen l -> zlen (skipn (Z.to_nat k) l) = zlen l - k.
Proof. unfold zlen. rewrite skipn_length. lia. Qed.

Lemma zn_firstn {A} (d : A) (l : list A) k i :
  0 <= i < k -> zn d (firstn (Z.to_nat k) l) i = zn d l i.
Proof.
  intros H. unfold zn. assert (Z.to_nat i < Z.to_nat k)%nat by lia.
  revert H0. generalize (Z.to_nat i), (Z.to_nat k). clear.
  intros n m; revert n m. induction l; intros [|n] [|m] H; simpl; auto; try lia.
  apply IHl; lia.
Qed.

Lemma zn_skipn {A} (d : A) (l : list A) k i :
  0 <= i -> 0 <= k -> zn d (skipn (Z.to_nat k) l) i = zn d l (k + i).
Proof.
  intros H K. unfold zn. replace (Z.to_nat (k + i)) with (Z.to_nat k + Z.to_nat i)%nat by lia.
  generalize (Z.to_nat i), (Z.to_nat k). clear.
  intros n m; revert n m. induction l; intros n [|m]; simpl; auto.
  destruct n; auto.
Qed.

Lemma zn_app {A} (d : A) (l1 l2 : list A) i :
  0 <= i -> zn d (l1 ++ l2) i = if i <? zlen l1 then zn d l1 i else zn d l2 (i - zlen l1).
Proof.
  intros H. unfold zn, zlen. destruct (Z.ltb_spec i (Z.of_nat (length l1))).
  - apply app_nth1. lia.
  - rewrite app_nth2 by lia. f_equal. lia.
Qed.

Lemma zn_In {A} (d : A) (l : list A) i : 0 <= i < zlen l -> In (zn d l i) l.
Proof. intros. apply nth_In. unfold zlen in *. lia. Qed.

Lemma In_zn {A} (d : A) (l : list A) a : In a l -> exists i, 0 <= i < zlen l /\ zn d l i = a.
Proof.
  intros H. apply (In_nth _ _ d) in H. destruct H as [n [Hn E]].
  exists (Z.of_nat n). unfold zn, zlen. rewrite Nat2Z.id. split; auto. lia.
Qed.

Lemma zlen_map {A B} (f : A -> B) l : zlen (map f l) = zlen l.
Proof. unfold zlen. now rewrite map_length. Qed.

Lemma zn_map {A B} (f : A -> B) d d' l i :
  0 <= i < zlen l -> zn d' (map f l) i = f (zn d l i).
Proof.
  intros H. unfold zn, zlen in *. rewrite (nth_indep _ d' (f d)).
  - apply map_nth.
  - rewrite map_length. lia.
Qed.

Lemma zlen_repeat {A} (a : A) n : zlen (repeat a n) = Z.of_nat n.
Proof. unfold zlen. now rewrite repeat_length. Qed.

Lemma zn_repeat {A} (a d : A) n i : 0 <= i < Z.of_nat n -> zn d (repeat a n) i = a.
Proof.
  intros H. unfold zn. assert (Z.to_nat i < n)%nat as L by lia. revert L.
  generalize (Z.to_nat i). clear. induction n; intros [|k] H; simpl; auto; try lia.
  apply IHn; lia.
Qed.

(** ** Tabulation *)
Definition ztab {A} (n : Z) (g : Z -> A) : list A :=
  map (fun k => g (Z.of_nat k)) (seq 0 (Z.to_nat n)).

Lemma zlen_ztab {A} n (g : Z -> A) : 0 <= n -> zlen (ztab n g) = n.
Proof. intros H. unfold ztab, zlen. rewrite map_length, seq_length. lia. Qed.

Lemma zn_ztab {A} (d : A) n g i : 0 <= i < n -> zn d (ztab n g) i = g i.
Proof.
  intros H. unfold zn, ztab.
  rewrite (nth_indep _ d (g (Z.of_nat 0))) by (rewrite map_length, seq_length; lia).
  rewrite (map_nth (fun k => g (Z.of_nat k)) (seq 0 (Z.to_nat n)) 0%nat).
  rewrite seq_nth by lia. f_equal. lia.
Qed.

Lemma tab_n_ok {A} (f : Z -> res A) g n : forall i,
  (forall k, i <= k < i + Z.of_nat n -> f k = Ok (g k)) ->
  tab_n n i f = Ok (map (fun k => g (i + Z.of_nat k)) (seq 0 n)).
Proof.
  induction n; intros i H; cbn [tab_n]; [reflexivity|].
  rewrite H by lia. cbn [bind]. rewrite IHn by (intros; apply H; lia). cbn [bind seq map].
  f_equal. f_equal; [f_equal; lia|].
  rewrite <- seq_shift, map_map. apply map_ext. intros k. f_equal. lia.
Qed.

Lemma tabulate_ok {A} (f : Z -> res A) g n : 0 <= n ->
  (forall k, 0 <= k < n -> f k = Ok (g k)) -> tabulate n f = Ok (ztab n g).
Proof.
  intros N H. unfold tabulate, ztab. destruct (Z.ltb_spec n 0); [lia|].
  rewrite (tab_n_ok f g) by (intros; apply H; lia). do 2 f_equal.
Qed.

Lemma tab_n_inv {A} (f : Z -> res A) (d : A) n : forall i l, tab_n n i f = Ok l ->
  length l = n /\ forall k, (k < n)%nat -> f (i + Z.of_nat k) = Ok (nth k l d).
Proof.
  induction n; intros i l H; cbn [tab_n] in H.
  - injection H as <-. split; [reflexivity|lia].
  - destruct (f i) eqn:E; cbn [bind] in H; try discriminate.
    destruct (tab_n n (i + 1) f) eqn:E2; cbn [bind] in H; try discriminate.
    injection H as <-. destruct (IHn _ _ E2) as [L K]. split; [cbn; lia|].
    intros [|k] Hk; cbn [nth].
    + replace (i + Z.of_nat 0) with i by lia. exact E.
    + replace (i + Z.of_nat (S k)) with (i + 1 + Z.of_nat k) by lia. apply K. lia.
Qed.

Lemma tabulate_inv {A} (f : Z -> res A) (d : A) n l : tabulate n f = Ok l ->
  0 <= n /\ zlen l = n /\ forall k, 0 <= k < n -> f k = Ok (zn d l k).
Proof.
  unfold tabulate. destruct (Z.ltb_spec n 0); [discriminate|]. intros E.
  destruct (tab_n_inv f d _ _ _ E) as [L K]. unfold zlen, zn. split; [lia|]. split; [lia|].
  intros k Hk. rewrite <- K by lia. f_equal. lia.
Qed.

Lemma tab_n_ext {A} (f g : Z -> res A) n : forall i,
  (forall k, i <= k < i + Z.of_nat n -> f k = g k) -> tab_n n i f = tab_n n i g.
Proof.
  induction n; intros i H; cbn [tab_n]; [reflexivity|].
  rewrite H by lia. rewrite (IHn (i + 1)) by (intros; apply H; lia). reflexivity.
Qed.

Lemma tabulate_ext {A} (f g : Z -> res A) n :
  (forall k, 0 <= k < n -> f k = g k) -> tabulate n f = tabulate n g.
Proof.
  intros H. unfold tabulate. destruct (n <? 0) eqn:E; auto. apply tab_n_ext. intros; apply H; lia.
Qed.

Lemma slice_ok {A} (l : list A) lo hi : 0 <= lo <= hi -> hi <= zlen l ->
  slice l lo hi = Ok (firstn (Z.to_nat (hi - lo)) (skipn (Z.to_nat lo) l)).
Proof.
  intros. unfold slice.
  destruct (Z.ltb_spec lo 0), (Z.ltb_spec hi lo), (Z.ltb_spec (zlen l) hi); cbn; auto; lia.
Qed.

Lemma zlen_slice {A} (l : list A) lo hi : 0 <= lo <= hi -> hi <= zlen l ->
  zlen (firstn (Z.to_nat (hi - lo)) (skipn (Z.to_nat lo) l)) = hi - lo.
Proof. intros. rewrite zlen_firstn; rewrite ?zlen_skipn; lia. Qed.

Lemma zn_slice {A} (d : A) (l : list A) lo hi i : 0 <= lo -> 0 <= i < hi - lo ->
  zn d (firstn (Z.to_nat (hi - lo)) (skipn (Z.to_nat lo) l)) i = zn d l (lo + i).
Proof. intros. rewrite zn_firstn by lia. apply zn_skipn; lia. Qed.

(** Tabulating a computation that returns at every index. *)
Lemma tab_n_wp {A} (f : Z -> res A) (P : Z -> A -> Prop) n : forall i,
  (forall k, i <= k < i + Z.of_nat n -> exists a, f k = Ok a /\ P k a) ->
  exists l, tab_n n i f = Ok l /\ length l = n /\ forall d k, (k < n)%nat -> P (i + Z.of_nat k) (nth k l d).
Proof.
  induction n as [|n IH]; intros i H.
  - exists []. split; [reflexivity|]. split; [reflexivity|]. intros; lia.
  - destruct (H i ltac:(lia)) as [a [E Pa]]. destruct (IH (i + 1)) as [l [El [Ll Pl]]]; [intros; apply H; lia|].
    exists (a :: l). cbn [tab_n]. rewrite E. cbn [bind]. rewrite El. split; [reflexivity|].
    split; [cbn; lia|]. intros d [|k] Hk; cbn [nth].
    + now replace (i + Z.of_nat 0) with i by lia.
    + replace (i + Z.of_nat (S k)) with (i + 1 + Z.of_nat k) by lia. apply Pl. lia.
Qed.

Lemma tabulate_wp {A} (f : Z -> res A) (P : Z -> A -> Prop) n : 0 <= n ->
  (forall k, 0 <= k < n -> exists a, f k = Ok a /\ P k a) ->
  exists l, tabulate n f = Ok l /\ zlen l = n /\ forall d k, 0 <= k < n -> P k (zn d l k).
Proof.
  intros N H. unfold tabulate. destruct (Z.ltb_spec n 0); [lia|].
  destruct (tab_n_wp f P (Z.to_nat n) 0) as [l [E [L Q]]]; [intros; apply H; lia|].
  exists l. split; [auto|]. split; [unfold zlen; lia|]. intros d k Hk. unfold zn.
  specialize (Q d (Z.to_nat k) ltac:(lia)). now replace (0 + Z.of_nat (Z.to_nat k)) with k in Q by lia.
Qed.

(** Two runs of one loop from related states. *)
Definition rel_res {A B} (P : A -> B -> Prop) (r1 : res A) (r2 : res B) : Prop :=
  match r1, r2 with
  | Ok a, Ok b => P a b
  | Panic, Panic | Fatal, Fatal | NoFuel, NoFuel => True
  | _, _ => False
  end.

Lemma for_n_rel {S T} (P : Z -> S -> T -> Prop) (b1 : Z -> S -> res S) (b2 : Z -> T -> res T) n : forall lo s t,
  P lo s t ->
  (forall i s t, lo <= i < lo + Z.of_nat n -> P i s t -> rel_res (P (i + 1)) (b1 i s) (b2 i t)) ->
  rel_res (P (lo + Z.of_nat n)) (for_n n lo b1 s) (for_n n lo b2 t).
Proof.
  induction n as [|n IH]; intros lo s t H0 HS; cbn [for_n].
  - cbn [rel_res]. now replace (lo + Z.of_nat 0) with lo by lia.
  - pose proof (HS lo s t ltac:(lia) H0) as H1. destruct (b1 lo s), (b2 lo t); cbn [rel_res bind] in *; auto; try contradiction.
    replace (lo + Z.of_nat (Datatypes.S n)) with (lo + 1 + Z.of_nat n) by lia. apply IH; auto.
    intros; apply HS; auto; lia.
Qed.

Lemma for_rel {S T} (P : Z -> S -> T -> Prop) (b1 : Z -> S -> res S) (b2 : Z -> T -> res T) lo hi s t : lo <= hi ->
  P lo s t -> (forall i s t, lo <= i < hi -> P i s t -> rel_res (P (i + 1)) (b1 i s) (b2 i t)) ->
  rel_res (P hi) (for_ lo hi b1 s) (for_ lo hi b2 t).
Proof.
  intros H H0 HS. unfold for_. pose proof (for_n_rel P b1 b2 (Z.to_nat (hi - lo)) lo s t H0) as K.
  replace (lo + Z.of_nat (Z.to_nat (hi - lo))) with hi in K by lia. apply K. intros; apply HS; auto.
Qed.

Lemma rel_res_eq {A} (r1 r2 : res A) : rel_res eq r1 r2 -> r1 = r2.
Proof. destruct r1, r2; cbn; intros; subst; auto; contradiction. Qed.
