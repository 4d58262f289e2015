(** The particle buffer delivers every particle. *)
From Coq Require Import ZArith List Bool Lia ZifyBool ZifyNat.
From Verif Require Import Base.Res Base.ResFacts Model.SheetIO Spec.Files.
Import ListNotations.
Open Scope Z_scope.

Lemma nth_upd {A} (l : list A) i k v d : (i < length l)%nat -> nth k (upd l i v) d = if Nat.eqb k i then v else nth k l d.
Proof.
  revert i k; induction l as [|a l IH]; intros i k H; cbn [length] in H; [lia|].
  destruct i, k; cbn [upd nth Nat.eqb]; auto. rewrite IH by lia. reflexivity.
Qed.

Section P.
Context {V : Type} (z : V).

Definition store (sel : particle V -> V) (xs : list V) (l : list (particle V)) : list V :=
  fold_left (fun xs p => upd xs (Z.to_nat (p_id p - 1)) (sel p)) l xs.

Lemma store_length sel l xs : length (store sel xs l) = length xs.
Proof. revert xs; induction l as [|p l IH]; intros xs; cbn; auto. unfold store in IH. rewrite IH. apply length_upd. Qed.
Lemma store_app sel l1 l2 xs : store sel xs (l1 ++ l2) = store sel (store sel xs l1) l2.
Proof. apply fold_left_app. Qed.

Lemma store_delivered sel xs l : Forall (fun p => 1 <= p_id p <= zlen xs) l -> delivered xs sel l (store sel xs l).
Proof.
  intros HF. split; [apply store_length|]. intros k d Hk.
  revert HF. induction l as [|p l IH] using rev_ind; intros HF; [reflexivity|].
  apply Forall_app in HF. destruct HF as [HF Hp]. inversion_clear Hp as [|? ? Hp' _].
  rewrite store_app. unfold last_with. rewrite rev_app_distr. cbn [rev app find].
  unfold store at 1. cbn [fold_left].
  rewrite nth_upd by (rewrite store_length; unfold zlen in Hp'; lia).
  destruct (Z.eqb_spec (p_id p) (Z.of_nat k + 1)) as [E|E].
  - replace (Nat.eqb k (Z.to_nat (p_id p - 1))) with true by lia. reflexivity.
  - replace (Nat.eqb k (Z.to_nat (p_id p - 1))) with false by lia. apply IH. exact HF.
Qed.

(** The entries of the buffer that are not flushed yet. *)
Definition holds (b : particle_buffer V) (size : nat) (pend : list (particle V)) : Prop :=
  length (pb_x b) = size /\ length (pb_v b) = size /\ length (pb_id b) = size /\
  pb_idx b = zlen pend /\ (length pend <= size)%nat /\
  forall i, (i < length pend)%nat -> forall d,
    nth i (pb_x b) (p_x d) = p_x (nth i pend d) /\ nth i (pb_v b) (p_v d) = p_v (nth i pend d) /\ nth i (pb_id b) (p_id d) = p_id (nth i pend d).

Lemma firstn_snoc {A} (l : list A) i d : (i < length l)%nat -> firstn (S i) l = firstn i l ++ [nth i l d].
Proof.
  revert i; induction l as [|a l IH]; intros i H; cbn [length] in H; [lia|].
  destruct i; cbn; [reflexivity|]. f_equal. apply (IH i). lia.
Qed.

Lemma flush_ok b size pend : holds b size pend ->
  Forall (fun p => 1 <= p_id p <= zlen (pb_xs b)) pend -> length (pb_vs b) = length (pb_xs b) ->
  pb_flush b = Ok (PB (pb_x b) (pb_v b) (pb_id b) 0 (store p_x (pb_xs b) pend) (store p_v (pb_vs b) pend)).
Proof.
  intros (L1 & L2 & L3 & LI & LP & HE) HF HL. unfold pb_flush.
  assert (K : wp (for_ 0 (pb_idx b) (fun i s =>
    let '(xs, vs) := s in
    bind (get (pb_id b) i) (fun id => bind (get (pb_x b) i) (fun x => bind (set xs (id - 1) x) (fun xs =>
    bind (get (pb_v b) i) (fun v => bind (set vs (id - 1) v) (fun vs => Ok (xs, vs))))))) (pb_xs b, pb_vs b))
    (fun s => s = (store p_x (pb_xs b) (firstn (Z.to_nat (pb_idx b)) pend), store p_v (pb_vs b) (firstn (Z.to_nat (pb_idx b)) pend)))).
  { apply (for_inv (fun m s => s = (store p_x (pb_xs b) (firstn (Z.to_nat m) pend), store p_v (pb_vs b) (firstn (Z.to_nat m) pend)))).
    - unfold zlen in LI. lia.
    - reflexivity.
    - intros i s Hi ->.
      set (d := ((z, z, 0) : particle V)).
      assert (Hip : (Z.to_nat i < length pend)%nat) by (unfold zlen in LI; lia).
      destruct (HE (Z.to_nat i) Hip d) as (E1 & E2 & E3).
      rewrite (get_ok 0 (pb_id b)) by (unfold zlen in *; lia). cbn [bind].
      rewrite (get_ok z (pb_x b)) by (unfold zlen in *; lia). cbn [bind].
      unfold zn. change (p_x d) with z in E1. change (p_v d) with z in E2. change (p_id d) with 0 in E3. rewrite E3, E1.
      assert (HI : 1 <= p_id (nth (Z.to_nat i) pend d) <= zlen (pb_xs b)).
      { rewrite Forall_forall in HF. apply HF. apply nth_In; auto. }
      rewrite set_ok by (unfold zlen in *; rewrite store_length; lia). cbn [bind].
      rewrite (get_ok z (pb_v b)) by (unfold zlen in *; lia). cbn [bind]. unfold zn. rewrite E2.
      rewrite set_ok by (unfold zlen in *; rewrite store_length; lia). cbn [bind wp].
      replace (Z.to_nat (i + 1)) with (S (Z.to_nat i)) by lia. rewrite (firstn_snoc _ _ d Hip), !store_app. reflexivity. }
  apply wp_ok in K. destruct K as (s & E & ->). rewrite E. cbn [bind].
  rewrite firstn_all2 by (unfold zlen in LI; lia). reflexivity.
Qed.

(** State of the buffer after the particles [l]. *)
Definition pinvariant (size : nat) (xs vs : list V) (l : list (particle V)) (b : particle_buffer V) : Prop :=
  exists pend, holds b size pend /\ (length pend < size)%nat /\
    Forall (fun p => 1 <= p_id p <= zlen xs) pend /\
    length (pb_xs b) = length xs /\ length (pb_vs b) = length vs /\
    store p_x (pb_xs b) pend = store p_x xs l /\ store p_v (pb_vs b) pend = store p_v vs l.

Lemma nth_snoc {A} (l : list A) p i d : (i <= length l)%nat -> nth i (l ++ [p]) d = if Nat.eqb i (length l) then p else nth i l d.
Proof.
  intros H. destruct (Nat.eqb_spec i (length l)) as [->|].
  - now rewrite app_nth2, Nat.sub_diag by lia.
  - now rewrite app_nth1 by lia.
Qed.

Lemma append_ok size xs vs l b (batch : list (particle V)) : length vs = length xs ->
  pinvariant size xs vs l b -> Forall (fun p => 1 <= p_id p <= zlen xs) batch ->
  exists b', pb_append b (map p_x batch) (map p_v batch) (map p_id batch) = Ok b' /\ pinvariant size xs vs (l ++ batch) b'.
Proof.
  intros HL HI HF. unfold pb_append.
  assert (HZ : zlen (map p_x batch) = zlen batch) by (unfold zlen; now rewrite map_length). rewrite HZ.
  assert (K : wp (for_ 0 (zlen batch) (fun pi b =>
    bind (get (map p_x batch) pi) (fun x => bind (set (pb_x b) (pb_idx b) x) (fun xs =>
    bind (get (map p_v batch) pi) (fun v => bind (set (pb_v b) (pb_idx b) v) (fun vs =>
    bind (get (map p_id batch) pi) (fun id => bind (set (pb_id b) (pb_idx b) id) (fun ids =>
    let b := PB xs vs ids (pb_idx b + 1) (pb_xs b) (pb_vs b) in
    if pb_idx b =? zlen (pb_x b) then pb_flush b else Ok b))))))) b)
    (fun b' => pinvariant size xs vs (l ++ firstn (Z.to_nat (zlen batch)) batch) b')).
  { apply (for_inv (fun m b' => pinvariant size xs vs (l ++ firstn (Z.to_nat m) batch) b')).
    - apply zlen_nonneg.
    - cbn [Z.to_nat firstn]. now rewrite app_nil_r.
    - clear HI b. intros i b Hi (pend & (L1 & L2 & L3 & LI & LP & HE) & HS & HP & LX & LV & SX & SV).
      set (d := ((z, z, 0) : particle V)). set (p := nth (Z.to_nat i) batch d).
      assert (Hib : (Z.to_nat i < length batch)%nat) by (unfold zlen in Hi; lia).
      assert (Hp : 1 <= p_id p <= zlen xs). { rewrite Forall_forall in HF. apply HF. apply nth_In; auto. }
      rewrite (get_ok (p_x d)) by (unfold zlen in *; rewrite map_length; lia). unfold zn. rewrite map_nth. fold p. cbn [bind].
      rewrite set_ok by (unfold zlen in *; lia). cbn [bind].
      rewrite (get_ok (p_v d)) by (unfold zlen in *; rewrite map_length; lia). unfold zn. rewrite map_nth. fold p. cbn [bind].
      rewrite set_ok by (unfold zlen in *; lia). cbn [bind].
      rewrite (get_ok (p_id d)) by (unfold zlen in *; rewrite map_length; lia). unfold zn. rewrite map_nth. fold p. cbn [bind].
      rewrite set_ok by (unfold zlen in *; lia). cbn [bind]. cbv zeta. cbn [pb_idx pb_x].
      set (b1 := PB _ _ _ _ _ _).
      assert (HB : holds b1 size (pend ++ [p])).
      { unfold holds, b1. cbn [pb_x pb_v pb_id pb_idx]. rewrite !length_upd.
        split; [exact L1|]. split; [exact L2|]. split; [exact L3|].
        split; [unfold zlen in *; rewrite app_length; cbn [length]; lia|].
        split; [rewrite app_length; cbn [length]; lia|].
        intros j Hj d0. rewrite app_length in Hj. cbn [length] in Hj.
        rewrite nth_snoc by lia. rewrite !nth_upd by (unfold zlen in LI; lia).
        replace (Z.to_nat (pb_idx b)) with (length pend) by (unfold zlen in LI; lia).
        destruct (Nat.eqb_spec j (length pend)); [auto|]. apply HE. lia. }
      assert (HP' : Forall (fun q => 1 <= p_id q <= zlen xs) (pend ++ [p])).
      { apply Forall_app. split; [exact HP|]. constructor; [exact Hp|constructor]. }
      assert (HB' : firstn (Z.to_nat (i + 1)) batch = firstn (Z.to_nat i) batch ++ [p]).
      { replace (Z.to_nat (i + 1)) with (S (Z.to_nat i)) by lia. apply firstn_snoc. exact Hib. }
      assert (SX' : store p_x (pb_xs b) (pend ++ [p]) = store p_x xs (l ++ firstn (Z.to_nat (i + 1)) batch)).
      { rewrite HB', app_assoc, (store_app _ _ [p] xs), <- SX. apply store_app. }
      assert (SV' : store p_v (pb_vs b) (pend ++ [p]) = store p_v vs (l ++ firstn (Z.to_nat (i + 1)) batch)).
      { rewrite HB', app_assoc, (store_app _ _ [p] vs), <- SV. apply store_app. }
      destruct (Z.eqb_spec (pb_idx b + 1) (zlen (upd (pb_x b) (Z.to_nat (pb_idx b)) (p_x p)))) as [E|E].
      + rewrite (flush_ok b1 size (pend ++ [p]) HB); cbn [pb_xs pb_vs b1].
        * cbn [wp]. exists []. unfold b1 at 1 2 3. 
          destruct HB as (B1 & B2 & B3 & _).
          split; [|split; [cbn; lia|split; [constructor|]]].
          { unfold holds. cbn [pb_x pb_v pb_id pb_idx]. split; [exact B1|]. split; [exact B2|]. split; [exact B3|].
            split; [reflexivity|]. split; [cbn; lia|]. intros j Hj. cbn in Hj. lia. }
          cbn [pb_xs pb_vs]. rewrite !store_length. split; [exact LX|]. split; [exact LV|]. split; [exact SX'|exact SV'].
        * unfold zlen. rewrite LX. exact HP'.
        * congruence.
      + cbn [wp]. exists (pend ++ [p]). split; [exact HB|]. split.
        { unfold zlen in *. rewrite length_upd in E. rewrite app_length. cbn [length]. lia. }
        split; [exact HP'|]. cbn [pb_xs pb_vs b1]. split; [exact LX|]. split; [exact LV|]. split; [exact SX'|exact SV']. }
  apply wp_ok in K. destruct K as (b' & E & H). exists b'. split; [exact E|].
  unfold zlen in H. rewrite Nat2Z.id, firstn_all in H. exact H.
Qed.

Lemma appends_ok size xs vs batches l b : length vs = length xs ->
  pinvariant size xs vs l b -> Forall (Forall (fun p => 1 <= p_id p <= zlen xs)) batches ->
  exists b', append_all b batches = Ok b' /\ pinvariant size xs vs (l ++ concat batches) b'.
Proof.
  intros HL. revert l b. induction batches as [|c batches IH]; intros l b HI HF.
  - exists b. split; [reflexivity|]. cbn. now rewrite app_nil_r.
  - inversion_clear HF as [|? ? H1 H2].
    destruct (append_ok size xs vs l b c HL HI H1) as (b1 & E1 & I1).
    destruct (IH (l ++ c) b1 I1 H2) as (b2 & E2 & I2).
    exists b2. split; [|cbn; now rewrite app_assoc].
    cbn [append_all]. rewrite E1. exact E2.
Qed.

Lemma all_delivered bufSize xs vs (batches : list (list (particle V))) : 0 < bufSize -> length vs = length xs ->
  Forall (Forall (fun p => 1 <= p_id p <= zlen xs)) batches ->
  exists b, send z xs vs bufSize batches = Ok b /\
    delivered xs p_x (concat batches) (pb_xs b) /\ delivered vs p_v (concat batches) (pb_vs b).
Proof.
  intros HB HL HF.
  assert (HI : pinvariant (Z.to_nat bufSize) xs vs [] (PB (repeat z (Z.to_nat bufSize)) (repeat z (Z.to_nat bufSize)) (repeat 0 (Z.to_nat bufSize)) 0 xs vs)).
  { exists []. unfold holds. cbn [pb_x pb_v pb_id pb_idx pb_xs pb_vs]. rewrite !repeat_length.
    split; [|repeat split; auto; cbn; lia].
    repeat split; auto; cbn in *; lia. }
  destruct (appends_ok _ xs vs batches [] _ HL HI HF) as (b & E & pend & HH & _ & HP & LX & LV & SX & SV).
  cbn [app] in SX, SV. unfold send, new_particle_buffer. replace (bufSize <? 0) with false by lia. cbv zeta. cbn [bind]. rewrite E. cbn [bind].
  rewrite (flush_ok b _ pend HH); [| |congruence].
  - eexists. split; [reflexivity|]. cbn [pb_xs pb_vs]. rewrite SX, SV.
    assert (HC : Forall (fun p => 1 <= p_id p <= zlen xs) (concat batches)).
    { clear - HF. induction HF; cbn; [constructor|]. apply Forall_app. auto. }
    split; apply store_delivered; auto. unfold zlen. rewrite HL. exact HC.
  - unfold zlen. rewrite LX. exact HP.
Qed.
End P.
