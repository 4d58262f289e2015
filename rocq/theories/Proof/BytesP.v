(** Facts about byte orders and the loops that reverse words. *)
From Coq Require Import ZArith List Bool Lia ZifyBool ZifyNat.
From Verif Require Import Base.Res Base.ResFacts Base.Bytes Model.Geom Model.SheetIO.
Import ListNotations.
Open Scope Z_scope.

Definition is_byte (b : Z) : Prop := 0 <= b < 256.

Lemma le_length k v : length (le k v) = k.
Proof. revert v; induction k; intros v; cbn; auto. Qed.
Lemma put_length o k v : length (put o k v) = k.
Proof. destruct o; cbn; rewrite ?rev_length; apply le_length. Qed.

Lemma of_le_le k v : of_le (le k v) = v mod 256 ^ Z.of_nat k.
Proof.
  revert v; induction k; intros v; cbn [le of_le].
  - cbn. now rewrite Z.mod_1_r.
  - rewrite IHk, Nat2Z.inj_succ, Z.pow_succ_r by lia.
    rewrite Z.rem_mul_r by (try apply Z.pow_pos_nonneg; lia). reflexivity.
Qed.
Lemma word_put o k v : word o (put o k v) = v mod 256 ^ Z.of_nat k.
Proof. destruct o; cbn; rewrite ?rev_involutive; apply of_le_le. Qed.

Definition other (o : order) : order := match o with Little => Big | Big => Little end.
Lemma word_rev o l : word o (rev l) = word (other o) l.
Proof. destruct o; cbn; [reflexivity|]. now rewrite rev_involutive. Qed.
Lemma order_eqb_spec a b : order_eqb a b = true <-> a = b.
Proof. destruct a, b; cbn; split; congruence. Qed.
Lemma order_neq a b : order_eqb a b = false -> b = other a.
Proof. destruct a, b; cbn; congruence. Qed.

Lemma encode_app o a b : encode o (a ++ b) = encode o a ++ encode o b.
Proof. unfold encode. apply flat_map_app. Qed.
Lemma decode_encode o l rest :
  decode o (map fst l) (encode o l ++ rest) = map (fun p => snd p mod 256 ^ Z.of_nat (fst p)) l.
Proof.
  induction l as [|[k v] l IH]; cbn [encode flat_map map decode fst snd]; [reflexivity|].
  fold (encode o l). rewrite <- app_assoc.
  rewrite firstn_app, put_length, firstn_all2 by (rewrite put_length; lia).
  replace (k - k)%nat with O by lia. cbn [firstn]. rewrite app_nil_r, word_put. f_equal.
  rewrite skipn_app, put_length, skipn_all2 by (rewrite put_length; lia).
  replace (k - k)%nat with O by lia. cbn [skipn app]. exact IH.
Qed.
Lemma encode_length o l : length (encode o l) = list_sum (map fst l).
Proof. induction l as [|[k v] l IH]; cbn; auto. rewrite app_length, put_length. unfold encode in IH. rewrite IH. reflexivity. Qed.

(** A function applied to n chunks of k elements. *)
Fixpoint chunkmap (f : list Z -> list Z) (k n : nat) (l : list Z) : list Z :=
  match n with O => l | S n => f (firstn k l) ++ chunkmap f k n (skipn k l) end.

Lemma chunkmap_length f k n l : (forall c, length c = k -> length (f c) = k) -> (k * n <= length l)%nat ->
  length (chunkmap f k n l) = length l.
Proof.
  intros Hf. revert l; induction n; intros l Hl; cbn [chunkmap]; auto.
  rewrite app_length, Hf, IHn, skipn_length by (rewrite ?firstn_length, ?skipn_length; lia). lia.
Qed.

Lemma words_chunkmap_rev o k n l : (k * n <= length l)%nat ->
  words o k n (chunkmap (@rev Z) k n l) = words (other o) k n l.
Proof.
  unfold words. revert l; induction n; intros l Hl; cbn [chunkmap repeat decode]; auto.
  assert (E : length (rev (firstn k l)) = k) by (rewrite rev_length, firstn_length; lia).
  rewrite firstn_app, E, firstn_all2 by lia. replace (k - k)%nat with O by lia. cbn [firstn]. rewrite app_nil_r, word_rev. f_equal.
  rewrite skipn_app, E, skipn_all2 by lia. replace (k - k)%nat with O by lia. cbn [skipn app]. apply IHn. rewrite skipn_length. lia.
Qed.

Lemma chunkmap_rev_twice k n l : (k * n <= length l)%nat ->
  chunkmap (@rev Z) k n (chunkmap (@rev Z) k n l) = l.
Proof.
  revert l; induction n; intros l Hl; cbn [chunkmap]; auto.
  assert (E : length (rev (firstn k l)) = k) by (rewrite rev_length, firstn_length; lia).
  rewrite firstn_app, E, firstn_all2 by lia. replace (k - k)%nat with O by lia. cbn [firstn]. rewrite app_nil_r, rev_involutive.
  rewrite skipn_app, E, skipn_all2 by lia. replace (k - k)%nat with O by lia. cbn [skipn app].
  rewrite IHn by (rewrite skipn_length; lia). apply firstn_skipn.
Qed.
Lemma chunkmap_id k n l : chunkmap (fun c => c) k n l = l.
Proof. revert l; induction n; intros l; cbn [chunkmap]; auto. rewrite IHn. apply firstn_skipn. Qed.

(** ** swap inside a longer list *)
Lemma get_app_mid {A} (pre c rest : list A) a x : get c a = Ok x -> get (pre ++ c ++ rest) (zlen pre + a) = Ok x.
Proof.
  unfold get. destruct (Z.ltb_spec a 0); [discriminate|]. unfold zlen.
  destruct (Z.ltb_spec (Z.of_nat (length pre) + a) 0); [lia|].
  replace (Z.to_nat (Z.of_nat (length pre) + a)) with (length pre + Z.to_nat a)%nat by lia.
  rewrite nth_error_app2 by lia. replace (length pre + Z.to_nat a - length pre)%nat with (Z.to_nat a) by lia.
  destruct (nth_error c (Z.to_nat a)) eqn:E; [|discriminate]. rewrite nth_error_app1; [now rewrite E|].
  apply nth_error_Some. congruence.
Qed.
Lemma upd_app_mid {A} (pre c rest : list A) n x : (n < length c)%nat ->
  upd (pre ++ c ++ rest) (length pre + n) x = pre ++ upd c n x ++ rest.
Proof.
  intros H. induction pre as [|a pre IH]; cbn [app length plus upd]; [|now rewrite IH].
  revert n H; induction c as [|b c IH]; intros n H; cbn [length] in H; [lia|]. destruct n; cbn; [reflexivity|].
  now rewrite IH by lia.
Qed.
Lemma set_app_mid {A} (pre c rest c' : list A) a x : set c a x = Ok c' ->
  set (pre ++ c ++ rest) (zlen pre + a) x = Ok (pre ++ c' ++ rest).
Proof.
  unfold set. destruct ((a <? 0) || (zlen c <=? a)) eqn:E; [discriminate|]. intros H. injection H as <-.
  replace ((zlen pre + a <? 0) || (zlen (pre ++ c ++ rest) <=? zlen pre + a)) with false
    by (unfold zlen in *; rewrite !app_length; lia).
  replace (Z.to_nat (zlen pre + a)) with (length pre + Z.to_nat a)%nat by (unfold zlen in *; lia).
  rewrite upd_app_mid; [reflexivity|]. unfold zlen in E. lia.
Qed.
Lemma swap_app_mid {A} (pre c rest c' : list A) a b : swap c a b = Ok c' ->
  swap (pre ++ c ++ rest) (zlen pre + a) (zlen pre + b) = Ok (pre ++ c' ++ rest).
Proof.
  unfold swap. destruct (get c a) as [x| | |] eqn:E1; cbn [bind]; try discriminate.
  destruct (get c b) as [y| | |] eqn:E2; cbn [bind]; try discriminate.
  destruct (set c a y) as [c1| | |] eqn:E3; cbn [bind]; try discriminate. intros E4.
  rewrite (get_app_mid _ _ _ _ _ E1), (get_app_mid _ _ _ _ _ E2). cbn [bind].
  rewrite (set_app_mid _ _ _ _ _ _ E3). cbn [bind]. now apply set_app_mid.
Qed.

Lemma inner_app k j last (pre c rest c' : list Z) :
  for_n k j (fun j c => swap c j (last - j)) c = Ok c' ->
  for_n k j (fun j mem => swap mem (zlen pre + j) (zlen pre + last - j)) (pre ++ c ++ rest) = Ok (pre ++ c' ++ rest).
Proof.
  revert j c; induction k; intros j c; cbn [for_n]; [intros H; injection H as <-; reflexivity|].
  destruct (swap c j (last - j)) as [c1| | |] eqn:E; cbn [bind]; try discriminate. intros H.
  replace (zlen pre + last - j) with (zlen pre + (last - j)) by lia.
  rewrite (swap_app_mid _ _ _ _ _ _ E). cbn [bind]. now apply IHk.
Qed.

Lemma swap_bytes_gen width half last f n mem :
  (forall c, length c = width -> for_ 0 half (fun j c => swap c j (last - j)) c = Ok (f c) /\ length (f c) = width) ->
  length mem = (width * n)%nat ->
  swap_bytes (Z.of_nat n) (Z.of_nat width) half last mem = Ok (chunkmap f width n mem).
Proof.
  intros Hf HL. unfold swap_bytes, for_ at 1. replace (Z.to_nat (Z.of_nat n - 0)) with n by lia.
  assert (K : forall n i pre mem, length pre = (width * i)%nat -> length mem = (width * n)%nat ->
    for_n n (Z.of_nat i) (fun i mem => for_ 0 half (fun j mem => swap mem (i * Z.of_nat width + j) (i * Z.of_nat width + last - j)) mem) (pre ++ mem)
    = Ok (pre ++ chunkmap f width n mem)).
  { clear n mem HL. induction n as [|n IH]; intros i pre mem HP HL; cbn [for_n chunkmap]; [reflexivity|].
    assert (HC : length (firstn width mem) = width) by (rewrite firstn_length; lia).
    destruct (Hf _ HC) as [E1 E2].
    pose proof (inner_app _ _ _ pre _ (skipn width mem) _ E1) as E. rewrite firstn_skipn in E.
    replace (Z.of_nat i * Z.of_nat width) with (zlen pre) by (unfold zlen; lia).
    unfold for_. rewrite E. cbn [bind]. replace (Z.of_nat i + 1) with (Z.of_nat (S i)) by lia.
    rewrite !app_assoc. apply IH; [rewrite app_length; lia|rewrite skipn_length; lia]. }
  apply (K n O [] mem); auto.
Qed.

Lemma four (c : list Z) : length c = 4%nat -> exists a b d e, c = [a; b; d; e].
Proof. intros H. do 4 (destruct c as [|? c]; [discriminate|]). destruct c; [eauto|discriminate]. Qed.
Lemma eight (c : list Z) : length c = 8%nat -> exists a b d e f g h i, c = [a; b; d; e; f; g; h; i].
Proof. intros H. do 8 (destruct c as [|? c]; [discriminate|]). destruct c; [|discriminate]. repeat eexists. Qed.

Lemma swap4 n mem : length mem = (4 * n)%nat -> swap_bytes (Z.of_nat n) 4 2 3 mem = Ok (chunkmap (@rev Z) 4 n mem).
Proof.
  intros H. apply (swap_bytes_gen 4); auto. intros c Hc. apply four in Hc. destruct Hc as (? & ? & ? & ? & ->). split; reflexivity.
Qed.
Lemma swap8 n mem : length mem = (8 * n)%nat -> swap_bytes (Z.of_nat n) 8 4 7 mem = Ok (chunkmap (@rev Z) 8 n mem).
Proof.
  intros H. apply (swap_bytes_gen 8); auto. intros c Hc. apply eight in Hc. destruct Hc as (? & ? & ? & ? & ? & ? & ? & ? & ->). split; reflexivity.
Qed.
(** The loop of readVec64AsByte does nothing. *)
Lemma swap64 n mem : length mem = (8 * n)%nat -> swap_bytes (Z.of_nat n) 8 4 3 mem = Ok mem.
Proof.
  intros H. rewrite (swap_bytes_gen 8 4 3 (fun c => c)); auto.
  - now rewrite chunkmap_id.
  - intros c Hc. apply eight in Hc. destruct Hc as (? & ? & ? & ? & ? & ? & ? & ? & ->). split; reflexivity.
Qed.

(** ** Reading *)
Lemma read_full_app a b c n m : length a = n -> length b = m -> read_full (a ++ b ++ c) n m = Some b.
Proof.
  intros <- <-. unfold read_full. rewrite skipn_app, skipn_all2 by lia. replace (length a - length a)%nat with O by lia. cbn [skipn app].
  rewrite firstn_app, firstn_all2 by lia. replace (length b - length b)%nat with O by lia. cbn [firstn]. rewrite app_nil_r, Nat.eqb_refl. reflexivity.
Qed.
Lemma read_full_short file pos n : (length file < pos + n)%nat -> (0 < n)%nat -> read_full file pos n = None.
Proof.
  intros H1 H2. unfold read_full. destruct (Nat.eqb_spec (length (firstn n (skipn pos file))) n) as [E|]; auto.
  rewrite firstn_length, skipn_length in E. lia.
Qed.
Lemma read_into_app a b c mem n : length a = n -> length b = length mem -> read_into (a ++ b ++ c) n mem = Some b.
Proof.
  intros <- HL. unfold read_into. rewrite skipn_app, skipn_all2 by lia. replace (length a - length a)%nat with O by lia. cbn [skipn app].
  rewrite firstn_app, <- HL, firstn_all2 by lia. replace (length b - length b)%nat with O by lia. cbn [firstn]. rewrite app_nil_r.
  destruct b as [|x b].
  - destruct mem; [reflexivity|discriminate].
  - rewrite HL, skipn_all, app_nil_r. reflexivity.
Qed.
