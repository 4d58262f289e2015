(** Matrix products and transposition in exact arithmetic. *)
From Coq Require Import ZArith List Lia Lra Bool Reals Psatz.
From Coq Require Import ZifyBool ZifyNat.
From Flocq Require Import Core.Raux.
From Verif Require Import Base.Res Base.ResFacts Base.Num Model.Mat Spec.Matrix Proof.SumP Proof.InterpP.
Import ListNotations.
Open Scope R_scope.
Local Notation zr := (zn 0).

(** [vals] holds the [h] by [w] matrix [f]. *)
Definition mat_is (w h : Z) (vals : list R) (f : Z -> Z -> R) : Prop :=
  zlen vals = (w * h)%Z /\
  forall i j, (0 <= i < h)%Z -> (0 <= j < w)%Z -> zr vals (i * w + j)%Z = f i j.

Definition fupd (f : Z -> Z -> R) (a b : Z) (v : R) (i j : Z) : R :=
  if ((i =? a)%Z && (j =? b)%Z)%bool then v else f i j.

Lemma idx_range w h i j : (0 <= i < h)%Z -> (0 <= j < w)%Z -> (0 <= i * w + j < w * h)%Z.
Proof. intros. nia. Qed.

Lemma idx_inj w i j i' j' : (0 <= j < w)%Z -> (0 <= j' < w)%Z ->
  (i * w + j = i' * w + j')%Z -> i = i' /\ j = j'.
Proof. intros H H' E. assert (i = i') by nia. subst. split; auto. lia. Qed.

Lemma mat_is_get w h vals f i j : mat_is w h vals f -> (0 <= i < h)%Z -> (0 <= j < w)%Z ->
  get vals (i * w + j) = Ok (f i j).
Proof.
  intros [L M] Hi Hj. rewrite (get_ok 0) by (rewrite L; apply idx_range; auto). now rewrite M.
Qed.

Lemma mat_is_set w h vals f a b v : mat_is w h vals f -> (0 <= a < h)%Z -> (0 <= b < w)%Z ->
  exists vals', set vals (a * w + b) v = Ok vals' /\ mat_is w h vals' (fupd f a b v).
Proof.
  intros [L M] Ha Hb. pose proof (idx_range w h a b Ha Hb) as RG. rewrite set_ok by lia. eexists; split; [reflexivity|].
  split; [now rewrite zlen_upd|]. intros i j Hi Hj. pose proof (idx_range w h i j Hi Hj). rewrite zn_upd by lia. unfold fupd.
  destruct (Z.eqb_spec (i * w + j) (a * w + b)) as [E|E].
  - apply idx_inj in E; auto. destruct E as [-> ->]. now rewrite !Z.eqb_refl.
  - destruct (Z.eqb_spec i a), (Z.eqb_spec j b); subst; cbn [andb]; try lia; auto.
Qed.

Lemma mat_is_ext w h vals f g : (forall i j, (0 <= i < h)%Z -> (0 <= j < w)%Z -> f i j = g i j) ->
  mat_is w h vals f -> mat_is w h vals g.
Proof. intros E [L M]. split; auto. intros i j Hi Hj. rewrite M by auto. apply E; auto. Qed.

Lemma mat_is_entry w h vals : zlen vals = (w * h)%Z -> mat_is w h vals (entry w vals).
Proof. intros L. split; auto. Qed.

Lemma mat_is_zero w h (l : list R) : zlen l = (w * h)%Z -> mat_is w h (map (fun _ => 0) l) (fun _ _ => 0).
Proof.
  intros L. split; [now rewrite zlen_map|]. intros i j Hi Hj.
  rewrite (zn_map _ 0) by (rewrite L; apply idx_range; auto). reflexivity.
Qed.

Lemma zeros_ok n : (0 <= n)%Z -> exists l, @zeros R RNum n = Ok l /\ zlen l = n /\ l = repeat 0 (Z.to_nat n).
Proof.
  intros H. unfold zeros. destruct (Z.ltb_spec n 0); [lia|]. eexists; split; [reflexivity|].
  rn. split; [rewrite zlen_repeat; lia|reflexivity].
Qed.

Lemma new_matrix_ok (vals : list R) w h : (0 < w)%Z -> (0 < h)%Z -> zlen vals = (w * h)%Z ->
  new_matrix vals w h = Ok (Mat vals w h).
Proof.
  intros W H L. unfold new_matrix. destruct (Z.leb_spec w 0); [lia|]. destruct (Z.leb_spec h 0); [lia|].
  rewrite L, Z.eqb_refl. reflexivity.
Qed.

Lemma new_matrix_inv (vals : list R) w h m : new_matrix vals w h = Ok m ->
  (0 < w)%Z /\ (0 < h)%Z /\ zlen vals = (w * h)%Z /\ m = Mat vals w h.
Proof.
  unfold new_matrix. destruct (Z.leb_spec w 0); [discriminate|]. destruct (Z.leb_spec h 0); [discriminate|].
  destruct (Z.eqb_spec (w * h) (zlen vals)); [|discriminate]. cbn [negb]. intros E. injection E as <-.
  split; [lia|]. split; [lia|]. auto.
Qed.

Lemma for_post {S} (I : Z -> S -> Prop) (P : S -> Prop) lo hi (body : Z -> S -> res S) s :
  (lo <= hi)%Z -> I lo s ->
  (forall i s, (lo <= i < hi)%Z -> I i s -> wp (body i s) (I (i + 1)%Z)) ->
  (forall s, I hi s -> P s) -> wp (for_ lo hi body s) P.
Proof. intros. eapply wp_mono; [apply (for_inv I); auto|]. auto. Qed.

Ltac split_and := repeat match goal with |- _ /\ _ => split end.

(** ** Products *)
Section Mult.
Variables (a b : list R) (n w h : Z).
Hypothesis (Hn : (0 < n)%Z) (Hw : (0 < w)%Z) (Hh : (0 < h)%Z).
Hypothesis (La : zlen a = (n * h)%Z) (Lb : zlen b = (w * n)%Z).
Let A := entry n a.
Let B := entry w b.

Lemma mult_eq : w = n \/ h = 1%Z ->
  exists c, mult (Mat a n h) (Mat b w n) = Ok (Mat c w h) /\ mat_is w h c (mat_mul n A B).
Proof.
  intros C. unfold mult. cbn [m_h m_w].
  destruct (zeros_ok (h * w) ltac:(nia)) as [z [-> [Lz _]]]. cbn [bind].
  rewrite new_matrix_ok by (auto; lia). cbn [bind]. unfold mult_at. cbn [m_h m_w m_vals].
  rewrite Z.eqb_refl. cbn [negb]. rn.
  pose proof (mat_is_entry n h a La) as IA. pose proof (mat_is_entry w n b Lb) as IB. fold A in IA. fold B in IB.
  match goal with |- exists c, bind ?e _ = _ /\ _ => cut (wp e (fun c => mat_is w h c (mat_mul n A B))) end.
  { intros W. apply wp_ok in W. destruct W as [c [-> W]]. cbn [bind]. eauto. }
  assert (forall i, (0 <= i < h)%Z -> forall j, (0 <= j < w)%Z ->
    (i * n + j = i * w + j)%Z) as OFF by (intros; destruct C; [subst w; auto|assert (i = 0)%Z by lia; subst; lia]).
  apply (for_post (fun i c => mat_is w h c (fun i' j' => if (i' <? i)%Z then mat_mul n A B i' j' else 0))); [lia| | |].
  - apply (mat_is_ext _ _ _ (fun _ _ => 0)); [intros; destruct (Z.ltb_spec i 0); [lia|auto]|].
    apply mat_is_zero. lia.
  - intros i c Hi IC. cbv zeta.
    apply (wp_mono _ (fun c => mat_is w h c (fun i' j' => if (i' <? i)%Z then mat_mul n A B i' j'
        else if (i' =? i)%Z && (j' <? w)%Z then mat_mul n A B i' j' else 0))).
    2:{ intros c' IC'. eapply mat_is_ext; [|exact IC']. intros i' j' Hi' Hj'; cbv beta.
        destruct (Z.ltb_spec i' i), (Z.ltb_spec i' (i + 1)), (Z.eqb_spec i' i), (Z.ltb_spec j' w); try lia; reflexivity. }
    apply (for_inv (fun j c => mat_is w h c (fun i' j' => if (i' <? i)%Z then mat_mul n A B i' j'
        else if (i' =? i)%Z && (j' <? j)%Z then mat_mul n A B i' j' else 0))); [lia| |].
    + eapply mat_is_ext; [|exact IC]. intros i' j' Hi' Hj'; cbv beta.
      destruct (Z.ltb_spec i' i), (Z.eqb_spec i' i), (Z.ltb_spec j' 0); try lia; reflexivity.
    + clear c IC. intros j c Hj IC.
      apply (wp_mono _ (fun c => mat_is w h c (fun i' j' => if (i' <? i)%Z then mat_mul n A B i' j'
        else if (i' =? i)%Z && (j' <? j)%Z then mat_mul n A B i' j'
        else if (i' =? i)%Z && (j' =? j)%Z then sum 0 n (fun k => A i k * B k j) else 0))).
      2:{ intros c' IC'. eapply mat_is_ext; [|exact IC']. intros i' j' Hi' Hj'; cbv beta.
          destruct (Z.ltb_spec i' i), (Z.eqb_spec i' i), (Z.ltb_spec j' j), (Z.eqb_spec j' j), (Z.ltb_spec j' (j + 1));
            subst; cbn [andb]; try lia; reflexivity. }
      apply (for_inv (fun k c => mat_is w h c (fun i' j' => if (i' <? i)%Z then mat_mul n A B i' j'
        else if (i' =? i)%Z && (j' <? j)%Z then mat_mul n A B i' j'
        else if (i' =? i)%Z && (j' =? j)%Z then sum 0 k (fun k => A i k * B k j) else 0))); [lia| |].
      * eapply mat_is_ext; [|exact IC]. intros i' j' Hi' Hj'; cbv beta. rewrite (sum_nil 0 0) by lia.
        destruct (Z.ltb_spec i' i), ((i' =? i)%Z && (j' <? j)%Z)%bool, ((i' =? i)%Z && (j' =? j)%Z)%bool; reflexivity.
      * clear c IC. intros k c Hk IC.
        rewrite (mat_is_get _ _ _ _ i k IA) by lia. cbn [bind].
        rewrite (mat_is_get _ _ _ _ k j IB) by lia. cbn [bind]. unfold add_at.
        rewrite (OFF i Hi j Hj). rewrite (mat_is_get _ _ _ _ i j IC) by lia. cbn [bind]. cbv beta. rn.
        rewrite Z.eqb_refl, Z.eqb_refl. destruct (Z.ltb_spec i i); [lia|]. destruct (Z.ltb_spec j j); [lia|]. cbn [andb].
        destruct (mat_is_set _ _ _ _ i j (sum 0 k (fun k => A i k * B k j) + A i k * B k j) IC ltac:(lia) ltac:(lia))
          as [c' [-> IC']]. cbn [wp]. eapply mat_is_ext; [|exact IC']. intros i' j' Hi' Hj'; cbv beta. unfold fupd.
        rewrite sum_last by lia.
        destruct (Z.eqb_spec i' i), (Z.eqb_spec j' j), (Z.ltb_spec i' i), (Z.ltb_spec j' j);
          subst; cbn [andb]; try lia; reflexivity.
  - intros c IC. eapply mat_is_ext; [|exact IC]. intros i j Hi Hj. cbv beta. destruct (Z.ltb_spec i h); [auto|lia].
Qed.

(** A narrower result: the last row is written past the end. *)
Lemma mult_narrow : (2 <= h)%Z -> (w < n)%Z -> mult (Mat a n h) (Mat b w n) = Panic.
Proof.
  intros H2 WN. unfold mult. cbn [m_h m_w].
  destruct (zeros_ok (h * w) ltac:(nia)) as [z [-> [Lz _]]]. cbn [bind].
  rewrite new_matrix_ok by (auto; lia). cbn [bind]. unfold mult_at. cbn [m_h m_w m_vals].
  rewrite Z.eqb_refl. cbn [negb]. rn.
  set (inner := fun i (vals : list R) => _).
  assert (forall i (vals : list R), (0 <= i < h)%Z -> zlen vals = (w * h)%Z ->
    (exists v, inner i vals = Ok v /\ zlen v = (w * h)%Z /\ (i < h - 1)%Z) \/ inner i vals = Panic) as STEP.
  { intros i vals Hi Lv.
    assert (forall j vals, (0 <= j < w)%Z -> zlen vals = (w * h)%Z ->
      (i * n + j < w * h ->
        exists v, for_ 0 n (fun k vals => x <- get a (i * n + k) ;; y <- get b (k * w + j) ;;
            add_at vals (i * n + j) (x * y)%num)%res vals = Ok v /\ zlen v = (w * h))%Z /\
      (w * h <= i * n + j -> for_ 0 n (fun k vals => x <- get a (i * n + k) ;; y <- get b (k * w + j) ;;
            add_at vals (i * n + j) (x * y)%num)%res vals = Panic)%Z) as IN.
    { clear vals Lv. intros j vals Hj Lv. split; intros RG.
      - cut (wp (for_ 0 n (fun k vals => x <- get a (i * n + k) ;; y <- get b (k * w + j) ;;
            add_at vals (i * n + j) (x * y)%num)%res vals) (fun v => zlen v = (w * h)%Z)).
        { intros W. apply wp_ok in W. exact W. }
        apply (for_inv (fun _ v => zlen v = (w * h)%Z)); auto; [lia|]. intros k v Hk L.
        rewrite !(get_ok 0) by nia. cbn [bind]. unfold add_at. rewrite (get_ok 0) by nia. cbn [bind].
        rewrite set_ok by nia. cbn [wp]. now rewrite zlen_upd.
      - rewrite for_step by lia. rewrite !(get_ok 0) by nia. cbn [bind]. unfold add_at.
        rewrite get_panic by nia. reflexivity. }
    destruct (Z_lt_le_dec (i * n + (w - 1)) (w * h)) as [G|G].
    - left. assert (i < h - 1)%Z by nia.
      cut (wp (inner i vals) (fun v => zlen v = (w * h)%Z)).
      { intros W. apply wp_ok in W. destruct W as [v [? ?]]. eauto. }
      unfold inner. cbv zeta. apply (for_inv (fun _ v => zlen v = (w * h)%Z)); auto; [lia|].
      intros j v Hj L. destruct (proj1 (IN j v Hj L) ltac:(lia)) as [v' [E' L']]. rn. rewrite E'. exact L'.
    - right. unfold inner. cbv zeta.
      assert (forall m, (Z.of_nat m <= w)%Z -> forall vals, zlen vals = (w * h)%Z ->
        for_ (w - Z.of_nat m) w (fun j vals => for_ 0 n (fun k vals => x <- get a (i * n + k) ;; y <- get b (k * w + j) ;;
            add_at vals (i * n + j) (x * y)%num)%res vals) vals = Panic \/ m = O) as K.
      { induction m as [|m IH]; intros Hm v L; auto. left.
        rewrite for_step by lia.
        destruct (Z_lt_le_dec (i * n + (w - Z.of_nat (S m))) (w * h)) as [G1|G1].
        - destruct (proj1 (IN (w - Z.of_nat (S m))%Z v ltac:(lia) L) ltac:(lia)) as [v' [-> L']]. cbn [bind].
          replace (w - Z.of_nat (S m) + 1)%Z with (w - Z.of_nat m)%Z by lia.
          destruct (IH ltac:(lia) v' L') as [P| ->]; auto. exfalso. lia.
        - now rewrite (proj2 (IN (w - Z.of_nat (S m))%Z v ltac:(lia) L) ltac:(lia)). }
      destruct (K (Z.to_nat w) ltac:(lia) vals Lv) as [P|P]; [|lia].
      replace (w - Z.of_nat (Z.to_nat w))%Z with 0%Z in P by lia. rn. exact P. }
  assert (forall m, (Z.of_nat m <= h)%Z -> forall vals, zlen vals = (w * h)%Z ->
     for_ (h - Z.of_nat m) h inner vals = Panic \/ m = O) as K.
  { induction m as [|m IH]; intros Hm v L; auto. left. rewrite for_step by lia.
    destruct (STEP (h - Z.of_nat (S m))%Z v ltac:(lia) L) as [[v' [-> [L' Hl]]]| ->]; auto. cbn [bind].
    replace (h - Z.of_nat (S m) + 1)%Z with (h - Z.of_nat m)%Z by lia.
    destruct (IH ltac:(lia) v' L') as [P| ->]; auto. exfalso. lia. }
  destruct (K (Z.to_nat h) ltac:(lia) (map (fun _ => 0) z)) as [P|P]; [rewrite zlen_map; lia| |lia].
  replace (h - Z.of_nat (Z.to_nat h))%Z with 0%Z in P by lia. rewrite P. reflexivity.
Qed.
End Mult.

(** ** Vectors *)
Lemma mult_vec_ok a w h v out : (0 < w)%Z -> (0 < h)%Z -> zlen a = (w * h)%Z -> zlen v = w -> zlen out = h ->
  exists u, mult_vec (Mat a w h) v out = Ok u /\ zlen u = h /\
    forall i, (0 <= i < h)%Z -> coord u i = mat_vec w (entry w a) (coord v) i.
Proof.
  intros W H La Lv Lo. unfold mult_vec. cbn [m_h m_w m_vals]. rewrite Lv, Lo, !Z.eqb_refl. cbn [negb orb]. rn.
  pose proof (mat_is_entry w h a La) as IA.
  match goal with |- exists u, bind ?e _ = _ /\ _ => cut (wp e (fun p => zlen (fst p) = h /\
    forall i, (0 <= i < h)%Z -> zr (fst p) i = mat_vec w (entry w a) (coord v) i)) end.
  { intros K. apply wp_ok in K. destruct K as [[u o] [-> K]]. cbn [bind]. eauto. }
  set (mv := mat_vec w (entry w a) (coord v)).
  apply (for_post (fun j p => zlen (fst p) = h /\ snd p = (j * w)%Z /\
    forall i, (0 <= i < h)%Z -> zr (fst p) i = if (i <? j)%Z then mv i else 0)); [lia| | |].
  - cbn [fst snd]. split; [now rewrite zlen_map|]. split; [lia|]. intros i Hi.
    rewrite (zn_map _ 0) by lia. destruct (Z.ltb_spec i 0); [lia|auto].
  - intros j [o off] Hj [L [E P]]. cbn [fst snd] in *. subst off.
    apply wp_bind. apply (wp_mono _ (fun o => zlen o = h /\ forall i, (0 <= i < h)%Z ->
      zr o i = if (i <? j)%Z then mv i else if (i =? j)%Z then mv j else 0)).
    2:{ intros o' [L' P']. cbn [wp fst snd]. split; [auto|]. split; [lia|]. intros i Hi. rewrite P' by auto.
        destruct (Z.ltb_spec i j), (Z.eqb_spec i j), (Z.ltb_spec i (j + 1)); subst; try lia; auto. }
    unfold mv at 2. unfold mat_vec.
    apply (for_inv (fun k o => zlen o = h /\ forall i, (0 <= i < h)%Z ->
      zr o i = if (i <? j)%Z then mv i else if (i =? j)%Z then sum 0 k (fun k => entry w a j k * coord v k) else 0));
      [lia| |].
    + split; [auto|]. intros i Hi. rewrite P by auto. rewrite sum_nil by lia.
      destruct (i <? j)%Z, (i =? j)%Z; auto.
    + clear o L P. intros k o Hk [L P]. rewrite (mat_is_get _ _ _ _ j k IA) by lia. cbn [bind].
      rewrite (get_ok 0) by lia. cbn [bind]. unfold add_at. rewrite (get_ok 0) by lia. cbn [bind].
      rewrite set_ok by lia. cbn [wp]. rewrite zlen_upd. split; [auto|]. intros i Hi. rewrite zn_upd by lia. rn.
      rewrite sum_last by lia. rewrite (P j) by lia. rewrite Z.eqb_refl. destruct (Z.ltb_spec j j); [lia|].
      destruct (Z.eqb_spec i j) as [->|NE].
      * destruct (Z.ltb_spec j j); [lia|]. reflexivity.
      * rewrite P by auto. destruct (Z.eqb_spec i j); [lia|]. auto.
  - intros [o off] [L [_ P]]. cbn [fst snd] in *. split; [auto|]. intros i Hi. rewrite P by auto.
    destruct (Z.ltb_spec i h); [auto|lia].
Qed.

Lemma vec_mult_ok a w h v out : (0 < w)%Z -> (0 < h)%Z -> zlen a = (w * h)%Z -> zlen v = h -> zlen out = w ->
  exists u, vec_mult v (Mat a w h) out = Ok u /\ zlen u = w /\
    forall j, (0 <= j < w)%Z -> coord u j = sum 0 h (fun i => coord v i * entry w a i j).
Proof.
  intros W H La Lv Lo. unfold vec_mult. cbn [m_h m_w m_vals]. rewrite Lv, Lo, !Z.eqb_refl. cbn [negb orb]. rn.
  pose proof (mat_is_entry w h a La) as IA.
  match goal with |- exists u, ?e = _ /\ _ => cut (wp e (fun p => zlen p = w /\
    forall j, (0 <= j < w)%Z -> zr p j = sum 0 h (fun i => coord v i * entry w a i j))) end.
  { intros K. apply wp_ok in K. destruct K as [u [-> K]]. eauto. }
  apply (for_post (fun i p => zlen p = w /\
    forall j, (0 <= j < w)%Z -> zr p j = if (j <? i)%Z then sum 0 h (fun i => coord v i * entry w a i j) else 0)); [lia| | |].
  - split; [now rewrite zlen_map|]. intros j Hj.
    rewrite (zn_map _ 0) by lia. destruct (Z.ltb_spec j 0); [lia|auto].
  - intros j o Hj [L P].
    apply wp_bind. apply (wp_mono _ (fun s => s = sum 0 h (fun i => coord v i * entry w a i j))).
    2:{ intros s ->. rewrite set_ok by lia. cbn [wp]. rewrite zlen_upd. split; [auto|]. intros i Hi.
        rewrite zn_upd by lia. destruct (Z.eqb_spec i j) as [->|].
        - destruct (Z.ltb_spec j (j + 1)); [auto|lia].
        - rewrite P by auto. destruct (Z.ltb_spec i j), (Z.ltb_spec i (j + 1)); try lia; auto. }
    apply (for_post (fun k s => s = sum 0 k (fun i => coord v i * entry w a i j))); [lia|now rewrite sum_nil by lia| |auto].
    intros k s Hk ->. rewrite (get_ok 0) by lia. cbn [bind]. replace (j + w * k)%Z with (k * w + j)%Z by lia.
    rewrite (mat_is_get _ _ _ _ k j IA) by lia. cbn [bind wp]. rn. rewrite sum_last by lia. reflexivity.
  - intros o [L P]. split; [auto|]. intros i Hi. rewrite P by auto.
    destruct (Z.ltb_spec i w); [auto|lia].
Qed.

(** ** Transposition *)
Section Transpose.
Variables (m : list R) (width height : Z).
Hypothesis (Hw : (0 < width)%Z) (Hh : (0 < height)%Z) (Lm : zlen m = (width * height)%Z).
Let A := entry width m.

Definition in_rect (xl yl xw yw x y : Z) : bool :=
  ((xl <=? x) && (x <? xl + xw) && (yl <=? y) && (y <? yl + yw))%Z.

(** The block is written, the rest is kept: entry (x, y) of out is A y x. *)
Definition block (xl yl xw yw : Z) (f : Z -> Z -> R) (x y : Z) : R :=
  if in_rect xl yl xw yw x y then A y x else f x y.

Lemma base_transpose_ok out f xl yl xw yw : mat_is height width out f ->
  (0 <= xl)%Z -> (0 <= yl)%Z -> (0 <= xw)%Z -> (0 <= yw)%Z -> (xl + xw <= width)%Z -> (yl + yw <= height)%Z ->
  exists out', base_transpose m out width height xl yl xw yw yl xl = Ok out' /\
    mat_is height width out' (block xl yl xw yw f).
Proof.
  intros IO H1 H2 H3 H4 H5 H6. unfold base_transpose. cbv zeta.
  pose proof (mat_is_entry width height m Lm) as IA. fold A in IA.
  match goal with |- exists u, ?e = _ /\ _ => cut (wp e (fun o => mat_is height width o (block xl yl xw yw f))) end.
  { intros K. apply wp_ok in K. exact K. }
  apply (for_post (fun y o => mat_is height width o (block xl yl xw y f))); [lia| | |auto].
  - eapply mat_is_ext; [|exact IO]. intros x y Hx Hy. unfold block, in_rect.
    destruct (Z.leb_spec xl x), (Z.ltb_spec x (xl + xw)), (Z.leb_spec yl y), (Z.ltb_spec y (yl + 0)); cbn [andb]; try lia; auto.
  - intros y o Hy IB.
    apply (for_post (fun x o => mat_is height width o (block xl (yl + y) x 1 (block xl yl xw y f)))); [lia| | |].
    + eapply mat_is_ext; [|exact IB]. intros i j Hi Hj. unfold block at 2. unfold in_rect at 1.
      destruct (Z.leb_spec xl i), (Z.ltb_spec i (xl + 0)); cbn [andb]; try lia; auto.
    + clear o IB. intros x o Hx IB.
      rewrite (mat_is_get _ _ _ _ (yl + y)%Z (xl + x)%Z IA) by lia. cbn [bind].
      destruct (mat_is_set _ _ _ _ (xl + x)%Z (yl + y)%Z (A (yl + y)%Z (xl + x)%Z) IB ltac:(lia) ltac:(lia)) as [o' [-> IB']].
      cbn [wp]. eapply mat_is_ext; [|exact IB']. intros i j Hi Hj. unfold fupd.
      destruct (Z.eqb_spec i (xl + x)), (Z.eqb_spec j (yl + y)); subst; cbn [andb].
      * unfold block, in_rect.
        destruct (Z.leb_spec xl (xl + x)), (Z.ltb_spec (xl + x) (xl + (x + 1))), (Z.leb_spec (yl + y) (yl + y)),
          (Z.ltb_spec (yl + y) (yl + y + 1)); cbn [andb]; try lia; auto.
      * set (g := block xl yl xw y f). unfold block, in_rect.
        destruct (Z.leb_spec (yl + y) j), (Z.ltb_spec j (yl + y + 1)); rewrite ?andb_false_r; cbn [andb]; try lia; auto.
      * set (g := block xl yl xw y f). unfold block, in_rect.
        destruct (Z.leb_spec xl i), (Z.ltb_spec i (xl + x)), (Z.ltb_spec i (xl + (x + 1))); cbn [andb]; try lia; auto.
      * set (g := block xl yl xw y f). unfold block, in_rect.
        destruct (Z.leb_spec (yl + y) j), (Z.ltb_spec j (yl + y + 1)); rewrite ?andb_false_r; cbn [andb]; try lia; auto.
    + intros o' IB'. eapply mat_is_ext; [|exact IB']. intros i j Hi Hj. unfold block, in_rect.
      destruct (Z.leb_spec xl i), (Z.ltb_spec i (xl + xw)), (Z.leb_spec yl j), (Z.ltb_spec j (yl + y)), (Z.leb_spec (yl + y) j),
        (Z.ltb_spec j (yl + y + 1)), (Z.ltb_spec j (yl + (y + 1))); cbn [andb]; try lia; auto.
Qed.

Lemma rec_transpose_ok cut : (1 <= cut)%Z -> forall fuel out f xl yl xw yw, mat_is height width out f ->
  (0 <= xl)%Z -> (0 <= yl)%Z -> (0 <= xw)%Z -> (0 <= yw)%Z -> (xl + xw <= width)%Z -> (yl + yw <= height)%Z ->
  (xw + yw < Z.of_nat fuel)%Z ->
  exists out', rec_transpose fuel cut m out width height xl yl xw yw yl xl = Ok out' /\
    mat_is height width out' (block xl yl xw yw f).
Proof.
  intros HC. induction fuel as [|fuel IH]; intros out f xl yl xw yw IO H1 H2 H3 H4 H5 H6 HF; [lia|].
  cbn [rec_transpose]. destruct ((xw <=? cut)%Z && (yw <=? cut)%Z)%bool eqn:EC.
  - apply base_transpose_ok; auto.
  - unfold quot. cbn [Z.eqb]. rewrite !Z.quot_div_nonneg by lia. cbn [bind].
    destruct (Z.gtb_spec xw yw) as [G|G].
    + assert (1 <= xw / 2 < xw)%Z as HD by (split; [apply Z.div_le_lower_bound; lia|apply Z.div_lt; lia]).
      destruct (IH out f xl yl (xw / 2)%Z yw IO) as [o1 [-> I1]]; try lia. cbn [bind].
      destruct (IH o1 _ (xl + xw / 2)%Z yl (xw - xw / 2)%Z yw I1) as [o2 [E2 I2]]; try lia.
      rewrite E2. exists o2. split; [auto|]. eapply mat_is_ext; [|exact I2]. intros i j Hi Hj. unfold block, in_rect.
      destruct (Z.leb_spec xl i), (Z.leb_spec (xl + xw / 2) i), (Z.ltb_spec i (xl + xw / 2)), (Z.ltb_spec i (xl + xw)),
        (Z.ltb_spec i (xl + xw / 2 + (xw - xw / 2))); cbn [andb]; try lia; auto;
        destruct ((yl <=? j)%Z && (j <? yl + yw)%Z)%bool; auto;
        destruct (yl <=? j)%Z, (j <? yl + yw)%Z; auto.
    + assert (1 <= yw / 2 < yw)%Z as HD by (split; [apply Z.div_le_lower_bound; lia|apply Z.div_lt; lia]).
      destruct (IH out f xl yl xw (yw / 2)%Z IO) as [o1 [-> I1]]; try lia. cbn [bind].
      destruct (IH o1 _ xl (yl + yw / 2)%Z xw (yw - yw / 2)%Z I1) as [o2 [E2 I2]]; try lia.
      rewrite E2. exists o2. split; [auto|]. eapply mat_is_ext; [|exact I2]. intros i j Hi Hj. unfold block, in_rect.
      destruct (Z.leb_spec yl j), (Z.leb_spec (yl + yw / 2) j), (Z.ltb_spec j (yl + yw / 2)), (Z.ltb_spec j (yl + yw)),
        (Z.ltb_spec j (yl + yw / 2 + (yw - yw / 2))); rewrite ?andb_true_r, ?andb_false_r; try lia; auto;
        destruct ((xl <=? i)%Z && (i <? xl + xw)%Z)%bool; auto.
Qed.

Lemma transpose_ok : exists t, transpose (Mat m width height) = Ok (Mat t height width) /\
  mat_is height width t (fun i j => A j i).
Proof.
  unfold transpose. cbn [m_h m_w m_vals].
  destruct (zeros_ok (height * width) ltac:(nia)) as [z [-> [Lz _]]]. cbn [bind].
  rewrite new_matrix_ok by (auto; lia). cbn [bind m_vals m_w m_h].
  destruct (rec_transpose_ok transposeRecWidth ltac:(unfold transposeRecWidth; lia)
    (S (Z.to_nat (width + height))) z _ 0 0 width height (mat_is_entry height width z Lz)) as [t [E I]]; try lia.
  rewrite E. cbn [bind]. exists t. split; [auto|]. eapply mat_is_ext; [|exact I]. intros i j Hi Hj.
  unfold block, in_rect. destruct (Z.leb_spec 0 i), (Z.ltb_spec i (0 + width)), (Z.leb_spec 0 j), (Z.ltb_spec j (0 + height));
    cbn [andb]; try lia; auto.
Qed.
End Transpose.

Lemma transpose_twice m w h : (0 < w)%Z -> (0 < h)%Z -> zlen m = (w * h)%Z ->
  (t <- transpose (Mat m w h) ;; transpose t)%res = Ok (Mat m w h).
Proof.
  intros W H L. destruct (transpose_ok m w h W H L) as [t [-> [Lt T]]]. cbn [bind].
  destruct (transpose_ok t h w H W Lt) as [u [-> [Lu U]]]. f_equal. f_equal.
  apply (list_ext 0); [lia|]. intros k Hk. rewrite Lu in Hk.
  replace k with (k / w * w + k mod w)%Z by (rewrite (Z.div_mod k w) at 3; lia).
  pose proof (Z.mod_pos_bound k w W). assert (0 <= k / w < h)%Z.
  { split; [apply Z.div_pos; lia|apply Z.div_lt_upper_bound; lia]. }
  rewrite U by auto. unfold entry. change (nth (Z.to_nat ?x) t 0) with (zr t x). rewrite T by auto. reflexivity.
Qed.
