(** Convolution with a kernel, boundary conditions, normalised kernels. *)
From Coq Require Import ZArith List Lia Lra Bool Reals Psatz.
From Coq Require Import ZifyBool ZifyNat.
From Flocq Require Import Core.Raux.
From Verif Require Import Base.Res Base.ResFacts Base.Num Model.Mat Model.Filter Spec.Matrix Spec.Filtering
  Proof.SumP Proof.FillP Proof.InterpP Proof.MatP.
Import ListNotations.
Open Scope R_scope.
Local Notation zr := (zn 0).

Lemma window_ok (rd : Z -> res R) e cs c i :
  (forall j, (0 <= j < zlen cs)%Z -> rd (i + j - c)%Z = Ok (e (i + j - c)%Z)) ->
  window rd (Kernel cs c) i = Ok (smoothed cs c e i).
Proof.
  intros H. unfold window. cbn [k_cs k_center].
  rewrite (acc_ok _ (fun j => coord cs j * e (i + j - c)%Z)).
  - rn. unfold smoothed, zlen. f_equal. lra.
  - apply zlen_nonneg.
  - intros j s Hj. rewrite (get_ok 0) by lia. cbn [bind]. cbv zeta. rewrite H by lia. cbn [bind]. rn.
    f_equal. unfold coord, zn. lra.
Qed.

(** What ConvolveAt computes: the smoothed sequence, where the positions up to
    the centre use the left rule and the last ones the right rule. *)
Lemma convolve_gen cs c xs b (el er : Z -> R) : (0 <= c < zlen cs)%Z -> (zlen cs <= zlen xs)%Z ->
  (forall k, (- c <= k < zlen cs)%Z -> read_left b xs k = Ok (el k)) ->
  (forall k, (zlen xs - zlen cs < k < zlen xs + zlen cs - 1 - c)%Z -> read_right b xs k = Ok (er k)) ->
  exists out, convolve (Kernel cs c) xs b = Ok out /\ zlen out = zlen xs /\
    forall i, (0 <= i < zlen xs)%Z -> coord out i =
      smoothed cs c (if (i <=? c)%Z then el else if (i <? zlen xs - (zlen cs - 1 - c))%Z then coord xs else er) i.
Proof.
  intros HC HN HL HR. unfold convolve.
  destruct (zeros_ok (zlen xs) ltac:(lia)) as [z [-> [Lz _]]]. cbn [bind].
  unfold convolve_at. cbn [k_cs k_center].
  match goal with |- exists o, ?e = _ /\ _ =>
    cut (wp e (fun out => zlen out = zlen xs /\ forall i, (0 <= i < zlen xs)%Z -> zr out i =
      smoothed cs c (if (i <=? c)%Z then el else if (i <? zlen xs - (zlen cs - 1 - c))%Z then coord xs else er) i)) end.
  { intros W. apply wp_ok in W. destruct W as [o [-> W]]. exists o. split; [reflexivity|]. exact W. }
  apply wp_bind. eapply wp_mono.
  { apply (fill_ok 0 _ (fun i => smoothed cs c el i)); [lia|lia|lia|].
    intros i Hi. apply window_ok. intros j Hj. apply HL. lia. }
  intros o1 [L1 V1]. apply wp_bind. eapply wp_mono.
  { apply (fill_ok 0 _ (fun i => smoothed cs c (coord xs) i)); [lia|lia|lia|].
    intros i Hi. apply window_ok. intros j Hj. rewrite (get_ok 0) by lia. reflexivity. }
  intros o2 [L2 V2]. eapply wp_mono.
  { apply (fill_ok 0 _ (fun i => smoothed cs c er i)); [lia|lia|lia|].
    intros i Hi. apply window_ok. intros j Hj. apply HR. lia. }
  intros o3 [L3 V3]. split; [lia|]. intros i Hi. rewrite V3, V2, V1 by lia.
  destruct (Z.leb_spec (zlen xs - (zlen cs - 1 - c)) i), (Z.ltb_spec i (zlen xs)), (Z.leb_spec (c + 1) i),
    (Z.ltb_spec i (zlen xs - (zlen cs - 1 - c))), (Z.leb_spec i c), (Z.leb_spec 0 i), (Z.ltb_spec i (c + 1));
    cbn [andb]; try lia; auto.
Qed.

Lemma smoothed_ext cs c e e' i : (forall j, (0 <= j < zlen cs)%Z -> e (i + j - c)%Z = e' (i + j - c)%Z) ->
  smoothed cs c e i = smoothed cs c e' i.
Proof. intros H. unfold smoothed. apply sum_ext. intros j Hj. f_equal. apply H. exact Hj. Qed.

(** ** Zeros and end values (C28) *)
Definition sound_ext (b : boundary) : list R -> Z -> R :=
  match b with ZeroPad => ext_zero | Extension => ext_ends | Periodic => ext_periodic | Reflection => ext_mirror end.

Ltac zcases := repeat match goal with |- context [(?a <? ?b)%Z] => destruct (Z.ltb_spec a b)
  | |- context [(?a <=? ?b)%Z] => destruct (Z.leb_spec a b) end; cbn [andb]; try lia.

Lemma convolve_sound cs c xs b : b = ZeroPad \/ b = Extension -> (0 <= c < zlen cs)%Z -> (zlen cs <= zlen xs)%Z ->
  exists out, convolve (Kernel cs c) xs b = Ok out /\ zlen out = zlen xs /\
    forall i, (0 <= i < zlen xs)%Z -> coord out i = smoothed cs c (sound_ext b xs) i.
Proof.
  intros B HC HN.
  destruct (convolve_gen cs c xs b (sound_ext b xs) (sound_ext b xs) HC HN) as [out [E [L V]]].
  - intros k Hk. unfold read_left. destruct (Z.ltb_spec k 0).
    + destruct B; subst b; cbn [sound_ext].
      * rn. f_equal. unfold ext_zero. zcases. reflexivity.
      * rewrite (get_ok 0) by lia. f_equal. unfold ext_ends, coord, zn. f_equal. unfold zlen in *. lia.
    + rewrite (get_ok 0) by lia. f_equal. unfold zlen in *.
      destruct B; subst b; cbn [sound_ext]; unfold ext_zero, ext_ends; zcases; unfold coord, zn; auto. f_equal. lia.
  - intros k Hk. unfold read_right. rewrite Z.geb_leb. destruct (Z.leb_spec (zlen xs) k).
    + destruct B; subst b; cbn [sound_ext].
      * rn. f_equal. unfold ext_zero. unfold zlen in *. zcases. reflexivity.
      * rewrite (get_ok 0) by lia. f_equal. unfold ext_ends, coord, zn. f_equal. unfold zlen in *. lia.
    + rewrite (get_ok 0) by lia. f_equal. unfold zlen in *.
      destruct B; subst b; cbn [sound_ext]; unfold ext_zero, ext_ends; zcases; unfold coord, zn; auto. f_equal. lia.
  - exists out. split; [auto|]. split; [auto|]. intros i Hi. rewrite V by auto.
    destruct (Z.leb_spec i c); [auto|]. destruct (Z.ltb_spec i (zlen xs - (zlen cs - 1 - c))); [|auto].
    apply smoothed_ext. intros j Hj. unfold zlen in *.
    destruct B; subst b; cbn [sound_ext]; unfold ext_zero, ext_ends; zcases; auto. f_equal. lia.
Qed.

(** ** Periodic and reflecting boundaries (C29): what is read instead *)
Definition code_left (b : boundary) (xs : list R) (k : Z) : R :=
  if (k <? 0)%Z then match b with
    | Periodic => coord xs (zlen xs - 1 + k)
    | Reflection => coord xs (1 - k)
    | _ => sound_ext b xs k end
  else coord xs k.

Lemma convolve_total cs c xs b : (0 <= c)%Z -> zlen cs = (2 * c + 1)%Z -> (zlen cs <= zlen xs)%Z ->
  exists out, convolve (Kernel cs c) xs b = Ok out /\ zlen out = zlen xs /\
    (forall i, (0 <= i <= c)%Z -> coord out i = smoothed cs c (code_left b xs) i) /\
    (forall i, (c <= i < zlen xs)%Z -> coord out i = smoothed cs c (sound_ext b xs) i).
Proof.
  intros HC LC HN.
  destruct (convolve_gen cs c xs b (code_left b xs) (sound_ext b xs) ltac:(lia) HN) as [out [E [L V]]].
  - intros k Hk. unfold read_left, code_left. destruct (Z.ltb_spec k 0).
    + destruct b; cbn [sound_ext]; rn.
      * rewrite (get_ok 0) by lia. reflexivity.
      * rewrite (get_ok 0) by lia. f_equal. unfold coord, zn. f_equal. lia.
      * f_equal. unfold ext_zero. zcases. reflexivity.
      * rewrite (get_ok 0) by lia. f_equal. unfold ext_ends, coord, zn. f_equal. unfold zlen in *. lia.
    + rewrite (get_ok 0) by lia. reflexivity.
  - intros k Hk. unfold read_right. rewrite Z.geb_leb. destruct (Z.leb_spec (zlen xs) k).
    + destruct b; cbn [sound_ext]; rn.
      * rewrite (get_ok 0) by lia. f_equal. unfold ext_periodic, coord, zn. f_equal. f_equal. unfold zlen in *.
        rewrite <- (Z.mod_small (k - Z.of_nat (length xs)) (Z.of_nat (length xs))) by lia.
        rewrite Zminus_mod, Z_mod_same_full, Z.sub_0_r. now rewrite Zmod_mod.
      * rewrite (get_ok 0) by lia. f_equal. unfold ext_mirror, coord, zn, zlen in *. zcases. reflexivity.
      * f_equal. unfold ext_zero. unfold zlen in *. zcases. reflexivity.
      * rewrite (get_ok 0) by lia. f_equal. unfold ext_ends, coord, zn. f_equal. unfold zlen in *. lia.
    + rewrite (get_ok 0) by lia. f_equal. unfold zlen in *.
      destruct b; cbn [sound_ext]; unfold ext_periodic, ext_mirror, ext_zero, ext_ends; zcases; unfold coord, zn; auto.
      * now rewrite Z.mod_small by lia.
      * f_equal. lia.
  - exists out. split; [auto|]. split; [auto|]. split.
    + intros i Hi. rewrite V by lia. destruct (Z.leb_spec i c); [auto|lia].
    + intros i Hi. rewrite V by lia. destruct (Z.leb_spec i c).
      * apply smoothed_ext. intros j Hj. unfold code_left. unfold zlen in *. zcases.
        destruct b; cbn [sound_ext]; unfold ext_periodic, ext_mirror, ext_zero, ext_ends; zcases; auto.
        -- now rewrite Z.mod_small by lia.
        -- f_equal. lia.
      * destruct (Z.ltb_spec i (zlen xs - (zlen cs - 1 - c))); [|auto].
        apply smoothed_ext. intros j Hj. unfold zlen in *.
        destruct b; cbn [sound_ext]; unfold ext_periodic, ext_mirror, ext_zero, ext_ends; zcases; auto.
        -- now rewrite Z.mod_small by lia.
        -- f_equal. lia.
Qed.

(** The middle of the sequence does not depend on the boundary condition. *)
Lemma convolve_interior cs c xs b : (0 <= c)%Z -> zlen cs = (2 * c + 1)%Z -> (zlen cs <= zlen xs)%Z ->
  exists out, convolve (Kernel cs c) xs b = Ok out /\ zlen out = zlen xs /\
    forall i, (c <= i < zlen xs - c)%Z -> coord out i = smoothed cs c (coord xs) i.
Proof.
  intros HC LC HN. destruct (convolve_total cs c xs b HC LC HN) as [out [E [L [_ V]]]].
  exists out. split; [auto|]. split; [auto|]. intros i Hi. rewrite V by lia.
  apply smoothed_ext. intros j Hj. unfold zlen in *.
  destruct b; cbn [sound_ext]; unfold ext_periodic, ext_mirror, ext_zero, ext_ends; zcases; auto.
  - now rewrite Z.mod_small by lia.
  - f_equal. lia.
Qed.

(** ** Constants (C30) *)
Lemma smoothed_const cs c v i : smoothed cs c (fun _ => v) i = v * total cs.
Proof.
  unfold smoothed, total. rewrite <- sum_scal. apply sum_ext. intros; ring.
Qed.

Lemma convolve_const cs c v n b : b <> ZeroPad -> (0 <= c)%Z -> zlen cs = (2 * c + 1)%Z -> (zlen cs <= Z.of_nat n)%Z ->
  total cs = 1 -> convolve (Kernel cs c) (repeat v n) b = Ok (repeat v n).
Proof.
  intros B HC LC HN T.
  assert (zlen (repeat v n) = Z.of_nat n) as LX by apply zlen_repeat.
  assert (forall k, (0 <= k < Z.of_nat n)%Z -> coord (repeat v n) k = v) as X.
  { intros k Hk. apply (zn_repeat v 0 n k). lia. }
  destruct (convolve_total cs c (repeat v n) b HC LC ltac:(lia)) as [out [E [L [V1 V2]]]]. rewrite E. f_equal.
  apply (list_ext 0); [lia|]. intros i Hi. rewrite L, LX in Hi.
  change (zn 0 out i) with (coord out i). change (zn 0 (repeat v n) i) with (coord (repeat v n) i). rewrite X by lia.
  assert (smoothed cs c (fun _ => v) i = v) as SC by (rewrite smoothed_const, T; ring).
  destruct (Z_le_gt_dec c i).
  - rewrite V2 by lia. rewrite <- SC at 2. apply smoothed_ext. intros j Hj. unfold zlen in *.
    destruct b; cbn [sound_ext]; unfold ext_periodic, ext_mirror, ext_ends; try (now elim B); zcases; apply X; try lia.
  - rewrite V1 by lia. rewrite <- SC at 2. apply smoothed_ext. intros j Hj. unfold code_left. zcases; [|apply X; lia].
    destruct b; cbn [sound_ext]; unfold ext_ends; try (now elim B); apply X; unfold zlen in *; lia.
Qed.

(** ** Constructors *)
Lemma normalize_ok cs : total cs <> 0 ->
  exists cs', normalize cs = Ok cs' /\ zlen cs' = zlen cs /\ total cs' = 1 /\
    forall i, (0 <= i < zlen cs)%Z -> coord cs' i = coord cs i / total cs.
Proof.
  intros T. unfold normalize. rewrite (acc_ok _ (coord cs)); [|apply zlen_nonneg|].
  2:{ intros i s Hi. rewrite (get_ok 0) by lia. cbn [bind]. rn. reflexivity. }
  cbn [bind]. rn. rewrite Rplus_0_l. change (sum 0 (zlen cs) (coord cs)) with (total cs).
  pose proof (fill_gen 0 (fun i cs0 => c <- get cs0 i;; set cs0 i (c / total cs)) (fun i => coord cs i / total cs)
    0 (zlen cs) cs ltac:(lia) (zlen_nonneg cs) ltac:(lia)) as W.
  assert (wp (for_ 0 (zlen cs) (fun i cs0 => c <- get cs0 i;; set cs0 i (c / total cs)) cs) (fun cs' =>
    zlen cs' = zlen cs /\ forall i, (0 <= i < zlen cs)%Z -> coord cs' i = coord cs i / total cs)) as W'.
  { eapply wp_mono; [apply W|].
    - intros i o Hi L V. rewrite (get_ok 0) by lia. cbn [bind]. rewrite V by lia.
      destruct (Z.leb_spec 0 i), (Z.ltb_spec i i); cbn [andb]; try lia. reflexivity.
    - intros o [L V]. split; [auto|]. intros i Hi. change (coord o i) with (zn 0 o i). rewrite V by lia.
      destruct (Z.leb_spec 0 i), (Z.ltb_spec i (zlen cs)); cbn [andb]; try lia. reflexivity. }
  apply wp_ok in W'. destruct W' as [o [-> [L V]]]. exists o. split; [reflexivity|]. split; [auto|]. split; [|auto].
  unfold total. change (Z.of_nat (length o)) with (zlen o). rewrite L.
  rewrite (sum_ext _ _ _ (fun i => coord cs i * / total cs)) by (intros; apply V; auto).
  rewrite sum_scal_r. change (sum 0 (zlen cs) (coord cs)) with (total cs). field. auto.
Qed.

Lemma sum_pos lo hi f : (lo < hi)%Z -> (forall k, (lo <= k < hi)%Z -> 0 < f k) -> 0 < sum lo hi f.
Proof.
  intros H P. rewrite sum_first by lia. assert (0 < f lo) by (apply P; lia).
  assert (0 <= sum (lo + 1) hi f) by (apply sum_nonneg; intros; apply Rlt_le, P; lia). lra.
Qed.

Lemma positive_symmetric_kernel cs c : zlen cs = (2 * c + 1)%Z -> (0 <= c)%Z ->
  (forall i, (0 <= i < zlen cs)%Z -> 0 < coord cs i) -> symmetric cs ->
  exists cs', normalize cs = Ok cs' /\ zlen cs' = zlen cs /\ total cs' = 1 /\ symmetric cs' /\
    forall i, (0 <= i < zlen cs)%Z -> coord cs' i = coord cs i / total cs.
Proof.
  intros L C P S. assert (0 < total cs) as T by (apply sum_pos; [fold (zlen cs); lia|exact P]).
  destruct (normalize_ok cs ltac:(lra)) as [cs' [E [L' [T' V]]]]. exists cs'. split; [auto|]. split; [auto|]. split; [auto|].
  split; [|auto]. intros i Hi. change (Z.of_nat (length cs')) with (zlen cs') in *. rewrite L' in *. rewrite !V by lia.
  unfold symmetric in S. change (Z.of_nat (length cs)) with (zlen cs) in S. now rewrite S.
Qed.

Lemma odd_width w : (0 < w)%Z -> Z.odd w = true -> Z.rem w 2 = 1%Z /\ w = (2 * Z.quot w 2 + 1)%Z /\ (0 <= Z.quot w 2)%Z.
Proof.
  intros H O. rewrite Zodd_mod in O. apply Zeq_bool_eq in O.
  rewrite Z.rem_mod_nonneg, Z.quot_div_nonneg by lia. pose proof (Z.div_mod w 2). lia.
Qed.

Lemma tophat_ok w : (0 < w)%Z -> Z.odd w = true ->
  exists cs, new_tophat w = Ok (Kernel cs (w / 2)) /\ zlen cs = w /\ total cs = 1 /\ symmetric cs.
Proof.
  intros H O. destruct (odd_width w H O) as [R1 [R2 R3]]. unfold new_tophat. rewrite R1. cbn [Z.eqb Pos.eqb negb].
  destruct (zeros_ok w ltac:(lia)) as [z [-> [Lz _]]]. cbn [bind]. rn.
  assert (wp (for_ 0 (zlen z) (fun i cs => set cs i 1) z) (fun o => zlen o = w /\ forall i, (0 <= i < w)%Z -> coord o i = 1)) as W.
  { eapply wp_mono; [apply (fill_gen 0 _ (fun _ => 1)); try lia; reflexivity|].
    intros o [L V]. split; [lia|]. intros i Hi. change (coord o i) with (zn 0 o i). rewrite V by lia. zcases. reflexivity. }
  apply wp_ok in W. destruct W as [o [-> [L V]]]. cbn [bind].
  destruct (positive_symmetric_kernel o (Z.quot w 2) ltac:(lia) R3) as [cs [-> [L' [T [S _]]]]].
  - intros i Hi. rewrite V by lia. lra.
  - intros i Hi. change (Z.of_nat (length o)) with (zlen o) in *. rewrite !V by lia. reflexivity.
  - cbn [bind]. rewrite Z.quot_div_nonneg by lia. exists cs. split; [reflexivity|]. split; [lia|]. auto.
Qed.

Lemma gaussian_ok w sigma dx : (0 < w)%Z -> Z.odd w = true -> sigma <> 0 ->
  exists cs, new_gaussian exp w sigma dx = Ok (Kernel cs (w / 2)) /\ zlen cs = w /\ total cs = 1 /\ symmetric cs /\
    (exists a, 0 < a /\ forall i, (0 <= i < w)%Z ->
       coord cs i = a * exp (- (IZR (i - w / 2) * dx) * (IZR (i - w / 2) * dx) / (2 * sigma * sigma))).
Proof.
  intros H O SG. destruct (odd_width w H O) as [R1 [R2 R3]]. unfold new_gaussian. rewrite R1. cbn [Z.eqb Pos.eqb negb].
  destruct (zeros_ok w ltac:(lia)) as [z [-> [Lz _]]]. cbn [bind]. rn.
  set (c := Z.quot w 2) in *. replace (w / 2)%Z with c by (unfold c; rewrite Z.quot_div_nonneg by lia; reflexivity).
  set (g := fun i => exp (- (IZR (i - c) * dx) * (IZR (i - c) * dx) / (2 * sigma * sigma))).
  assert (wp (for_ 0 (c + 1) (fun i cs => set cs i (g i)) z) (fun o => zlen o = w /\
     forall i, (0 <= i <= c)%Z -> coord o i = g i)) as W.
  { eapply wp_mono; [apply (fill_gen 0 _ g); try lia; reflexivity|].
    intros o [L V]. split; [lia|]. intros i Hi. change (coord o i) with (zn 0 o i). rewrite V by lia. zcases. reflexivity. }
  apply wp_ok in W. destruct W as [o [E1 [L V]]]. unfold g in E1 at 1. rewrite E1. cbn [bind]. clear E1.
  assert (forall i, g (2 * c - i)%Z = g i) as GS.
  { intros i. unfold g. f_equal. f_equal. replace (2 * c - i - c)%Z with (- (i - c))%Z by lia. rewrite opp_IZR. ring. }
  assert (wp (for_ (c + 1) (zlen o) (fun i cs => c <- get cs (zlen cs - 1 - i);; set cs i c) o) (fun o' => zlen o' = w /\
     forall i, (0 <= i < w)%Z -> coord o' i = g i)) as W.
  { eapply wp_mono; [apply (fill_gen 0 _ g); try lia|].
    - intros i o' Hi L' V'. rewrite (get_ok 0) by lia. cbn [bind]. rewrite V' by lia. zcases.
      change (zn 0 o (zlen o' - 1 - i)) with (coord o (zlen o' - 1 - i)). rewrite V by lia.
      replace (zlen o' - 1 - i)%Z with (2 * c - i)%Z by lia. now rewrite GS.
    - intros o' [L' V']. split; [lia|]. intros i Hi. change (coord o' i) with (zn 0 o' i). rewrite V' by lia. zcases; auto.
      apply V. lia. }
  apply wp_ok in W. destruct W as [o' [-> [L' V']]]. cbn [bind].
  assert (forall i, 0 < g i) as GP by (intros; apply exp_pos).
  destruct (positive_symmetric_kernel o' c ltac:(lia) R3) as [cs [-> [L2 [T [S V2]]]]].
  - intros i Hi. rewrite V' by lia. apply GP.
  - intros i Hi. change (Z.of_nat (length o')) with (zlen o') in *. rewrite !V' by lia.
    replace (zlen o' - 1 - i)%Z with (2 * c - i)%Z by lia. apply GS.
  - cbn [bind]. exists cs. split; [reflexivity|]. split; [lia|]. split; [auto|]. split; [auto|].
    assert (0 < total o') as TP by (apply sum_pos; [fold (zlen o'); lia|intros; fold (zlen o') in *; rewrite V' by lia; apply GP]).
    exists (/ total o'). split; [now apply Rinv_0_lt_compat|]. intros i Hi. rewrite V2, V' by lia. unfold g. unfold Rdiv at 1. ring.
Qed.

(** ** Boundary condition lookup (C31) *)
Lemma bc_get_ok (b : boundary) xs i : (- zlen xs <= i < 2 * zlen xs)%Z ->
  (b = ZeroPad -> bc_get b xs i = Ok (ext_zero xs i)) /\
  (b = Extension -> bc_get b xs i = Ok (ext_ends xs i)) /\
  (b = Periodic -> (0 <= i)%Z -> bc_get b xs i = Ok (ext_periodic xs i)) /\
  (b = Reflection -> (i < zlen xs)%Z -> bc_get b xs i = Ok (ext_mirror_repeat xs i)).
Proof.
  intros H. unfold bc_get. split; [|split; [|split]].
  - intros ->. unfold ext_zero. rewrite Z.geb_leb. unfold zlen in *. rn. zcases; auto. rewrite (get_ok 0) by (unfold zlen; lia). reflexivity.
  - intros ->. unfold ext_ends. rewrite Z.geb_leb. zcases; rewrite (get_ok 0) by lia; f_equal; unfold coord, zn; f_equal; unfold zlen in *; lia.
  - intros -> P. unfold ext_periodic. rewrite Z.geb_leb. unfold zlen in *. zcases; rewrite (get_ok 0) by (unfold zlen; lia); f_equal; unfold coord, zn; f_equal; f_equal.
    + symmetry. rewrite <- (Z.mod_small (i - Z.of_nat (length xs)) (Z.of_nat (length xs))) by lia.
      rewrite Zminus_mod, Z_mod_same_full, Z.sub_0_r. now rewrite Zmod_mod.
    + now rewrite Z.mod_small by lia.
  - intros -> P. unfold ext_mirror_repeat. rewrite Z.geb_leb. unfold zlen in *.
    zcases; rewrite (get_ok 0) by (unfold zlen; lia); f_equal; unfold coord, zn; f_equal. lia.
Qed.

Lemma bc_get_bad : bc_get Periodic [1; 2; 3] (-1) = Ok 2 /\ ext_periodic [1; 2; 3] (-1) = 3 /\
  (forall xs : list R, bc_get Reflection xs (zlen xs) = Panic).
Proof.
  split; [reflexivity|]. split; [reflexivity|]. intros xs. unfold bc_get. pose proof (zlen_nonneg xs).
  rewrite Z.geb_leb. zcases. apply get_panic. lia.
Qed.

Lemma convolve_bad :
  (exists out, convolve (Kernel [1; 0; 0] 1) [1; 2; 4] Periodic = Ok out /\ coord out 0 = 2 /\
     smoothed [1; 0; 0] 1 (ext_periodic [1; 2; 4]) 0 = 4) /\
  (exists out, convolve (Kernel [1; 0; 0] 1) [1; 2; 4] Reflection = Ok out /\ coord out 0 = 4 /\
     smoothed [1; 0; 0] 1 (ext_mirror [1; 2; 4]) 0 = 2 /\ smoothed [1; 0; 0] 1 (ext_mirror_repeat [1; 2; 4]) 0 = 1).
Proof.
  split.
  - eexists. split; [cbv -[Rplus Rmult IZR]; reflexivity|]. split; [cbv -[Rplus Rmult IZR]; ring|].
    cbv -[Rplus Rmult IZR]. ring.
  - eexists. split; [cbv -[Rplus Rmult IZR]; reflexivity|]. split; [cbv -[Rplus Rmult IZR]; ring|].
    split; cbv -[Rplus Rmult IZR]; ring.
Qed.
