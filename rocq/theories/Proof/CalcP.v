(** Numerical derivatives on uniform grids. *)
From Coq Require Import ZArith List Lia Lra Bool Reals Psatz.
From Coq Require Import ZifyBool ZifyNat.
From Flocq Require Import Core.Raux.
From Verif Require Import Base.Res Base.ResFacts Base.Num Model.Calc Spec.Matrix Spec.Filtering Proof.FillP Proof.InterpP.
Import ListNotations.
Open Scope R_scope.
Local Notation zr := (zn 0).

Lemma fill_body (body : Z -> list R -> res (list R)) (g : Z -> R) lo hi out :
  (0 <= lo)%Z -> (lo <= hi)%Z -> (hi <= zlen out)%Z -> (forall i o, (lo <= i < hi)%Z -> body i o = set o i (g i)) ->
  exists o, for_ lo hi body out = Ok o /\ zlen o = zlen out /\
    forall i, (0 <= i < zlen out)%Z -> coord o i = if ((lo <=? i) && (i <? hi))%Z%bool then g i else coord out i.
Proof.
  intros H1 H2 H3 HB. pose proof (fill_gen 0 body g lo hi out H1 H2 H3 (fun i o Hi _ _ => HB i o Hi)) as W.
  apply wp_ok in W. exact W.
Qed.

Lemma coord_upd (l : list R) i j v : (0 <= i < zlen l)%Z -> (0 <= j)%Z ->
  coord (upd l (Z.to_nat i) v) j = if (j =? i)%Z then v else coord l j.
Proof. intros. apply (zn_upd 0); auto. Qed.

Lemma deriv2_thm xs ys out x0 h a b c : (3 <= zlen xs)%Z -> zlen ys = zlen xs -> zlen out = zlen xs -> h <> 0 -> uniform x0 h xs ->
  (forall i, (0 <= i < zlen xs)%Z -> coord ys i = poly [a; b; c] (coord xs i)) ->
  exists d, deriv_out xs ys out 2 = Ok d /\ zlen d = zlen xs /\
    forall i, (0 <= i < zlen xs)%Z -> coord d i = poly (dpoly [a; b; c]) (coord xs i).
Proof.
  intros N Ly Lo Hh X Y. unfold uniform in X. change (Z.of_nat (length xs)) with (zlen xs) in X. unfold deriv_out. rewrite Ly, Lo, Z.eqb_refl. cbn [negb Z.eqb]. change (2 =? 2)%Z with true. cbv iota.
  unfold deriv2. set (n := zlen xs) in *.
  assert (forall i, (0 <= i < n)%Z -> get xs i = Ok (coord xs i)) as GX by (intros; apply (get_ok 0); auto).
  assert (forall i, (0 <= i < n)%Z -> get ys i = Ok (coord ys i)) as GY by (intros; apply (get_ok 0); lia).
  destruct (fill_body (fun i out =>
    yr <- get ys (i + 1) ;; yl <- get ys (i - 1) ;;
    xr <- get xs (i + 1) ;; xl <- get xs (i - 1) ;;
    set out i ((yr - yl) / (xr - xl))%num)%res
    (fun i => (coord ys (i + 1) - coord ys (i - 1)) / (coord xs (i + 1) - coord xs (i - 1))) 1 (n - 1) out) as [o [-> [Lo' Vo]]]; try lia.
  { intros i o Hi. rewrite !GY, !GX by lia. cbn [bind]. rn. reflexivity. }
  cbn [bind]. rewrite !GY, !GX by lia. cbn [bind]. rewrite set_ok by lia. cbn [bind]. rewrite set_ok by (rewrite zlen_upd; lia).
  eexists. split; [reflexivity|]. split; [rewrite !zlen_upd; lia|]. intros i Hi.
  rewrite !coord_upd by (rewrite ?zlen_upd; lia). rn. rewrite Vo by lia.
  rewrite !Y by lia. unfold dpoly. cbn [tl dcoefs poly Z.add Pos.add Pos.succ].
  destruct (Z.eqb_spec i (n - 1)) as [->|N1]; [|destruct (Z.eqb_spec i 0) as [->|N0]].
  - rewrite !X by lia. rewrite !minus_IZR. field. lra.
  - rewrite !X by lia. field. lra.
  - destruct (Z.leb_spec 1 i), (Z.ltb_spec i (n - 1)); cbn [andb]; try lia. rewrite !X by lia. rewrite !Y, !X by lia. rewrite !plus_IZR, !minus_IZR. 
    cbn [poly]. field. lra.
Qed.

Lemma deriv4_thm xs ys out x0 h a b c d e : (5 <= zlen xs)%Z -> zlen ys = zlen xs -> zlen out = zlen xs -> h <> 0 -> uniform x0 h xs ->
  (forall i, (0 <= i < zlen xs)%Z -> coord ys i = poly [a; b; c; d; e] (coord xs i)) ->
  exists o, deriv_out xs ys out 4 = Ok o /\ zlen o = zlen xs /\
    forall i, (0 <= i < zlen xs)%Z -> coord o i =
      (if ((2 <=? i) && (i <? zlen xs - 2))%Z%bool then 4 / 3 else 1) * poly (dpoly [a; b; c; d; e]) (coord xs i).
Proof.
  intros N Ly Lo Hh X Y. unfold uniform in X. change (Z.of_nat (length xs)) with (zlen xs) in X. unfold deriv_out. rewrite Ly, Lo, Z.eqb_refl. cbn [negb]. change (4 =? 0)%Z with false.
  change (4 =? 2)%Z with false. change (4 =? 4)%Z with true. cbv iota.
  unfold deriv4. set (n := zlen xs) in *.
  assert (forall i, (0 <= i < n)%Z -> get xs i = Ok (coord xs i)) as GX by (intros; apply (get_ok 0); auto).
  assert (forall i, (0 <= i < n)%Z -> get ys i = Ok (coord ys i)) as GY by (intros; apply (get_ok 0); lia).
  destruct (fill_body (fun i out =>
    a <- get ys (i + 2) ;; b <- get ys (i + 1) ;; c <- get ys (i - 1) ;; d <- get ys (i - 2) ;;
    xr <- get xs (i + 2) ;; xl <- get xs (i - 1) ;;
    set out i ((- a + #8 * b - #8 * c + d) / (#3 * (xr - xl)))%num)%res
    (fun i => (- coord ys (i + 2) + 8 * coord ys (i + 1) - 8 * coord ys (i - 1) + coord ys (i - 2)) /
      (3 * (coord xs (i + 2) - coord xs (i - 1)))) 2 (n - 2) out) as [o [-> [Lo' Vo]]]; try lia.
  { intros i o Hi. rewrite !GY, !GX by lia. cbn [bind]. rn. reflexivity. }
  cbn [bind]. rewrite !GY, !GX by lia. cbn [bind]. rewrite set_ok by lia. cbn [bind]. rewrite set_ok by (rewrite zlen_upd; lia).
  cbn [bind]. rewrite set_ok by (rewrite !zlen_upd; lia). cbn [bind]. rewrite set_ok by (rewrite !zlen_upd; lia).
  eexists. split; [reflexivity|]. split; [rewrite !zlen_upd; lia|]. intros i Hi.
  rewrite !coord_upd by (rewrite ?zlen_upd; lia). rn. rewrite Vo by lia.
  unfold dpoly. cbn [tl dcoefs Z.add Pos.add Pos.succ]. rewrite !Y by lia.
  destruct (Z.leb_spec 2 i), (Z.ltb_spec i (n - 2)); cbn [andb];
    (destruct (Z.eqb_spec i (n - 1)) as [E1|N1]; [|destruct (Z.eqb_spec i 1) as [E2|N2]; [|destruct (Z.eqb_spec i (n - 2)) as [E3|N3];
       [|destruct (Z.eqb_spec i 0) as [E4|N4]]]]); try lia.
  all: rewrite ?Y by lia; try subst i; rewrite !X by lia; rewrite ?plus_IZR, ?minus_IZR; cbn [poly]; field; repeat split; try lra.
Qed.

Lemma deriv4_bad : exists d, deriv [0; 1; 2; 3; 4] [0; 1; 2; 3; 4] 4 = Ok d /\ coord d 2 = 4 / 3.
Proof.
  assert (uniform 0 1 [0; 1; 2; 3; 4]) as G.
  { intros i Hi. change (0 <= i < 5)%Z in Hi. assert (i = 0 \/ i = 1 \/ i = 2 \/ i = 3 \/ i = 4)%Z as D by lia.
    repeat destruct D as [-> | D]; [| | | |subst i]; cbv -[Rplus Rmult IZR]; ring. }
  destruct (deriv4_thm [0; 1; 2; 3; 4] [0; 1; 2; 3; 4] (repeat 0 5) 0 1 0 1 0 0 0) as [o [E [L V]]];
    [cbv; discriminate|reflexivity|reflexivity|lra|exact G|intros; cbn [poly]; ring|].
  exists o. split; [exact E|]. rewrite V by (change (zlen [0; 1; 2; 3; 4]) with 5%Z; lia).
  match goal with |- (if ?b then _ else _) * _ = _ => change b with true end.
  cbv iota. change (coord [0; 1; 2; 3; 4] 2) with 2. unfold dpoly. cbn [tl dcoefs poly Z.add Pos.add Pos.succ]. field.
Qed.

(** ** Order 0 and refusals, in any arithmetic *)
Section Any.
Context {F : Type} {NF : Num F}.
Lemma copy_thm (xs out : list F) : zlen out = zlen xs -> copy_loop xs out = Ok xs.
Proof.
  intros L. unfold copy_loop. destruct xs as [|d xs'] eqn:Ex; [destruct out; [reflexivity|cbn in L; lia]|]. rewrite <- Ex in *. clear Ex xs'.
  pose proof (fill_gen d (fun i out => bind (get xs i) (fun x => set out i x)) (fun i => zn d xs i) 0 (zlen xs) out) as W.
  assert (W' : wp (for_ 0 (zlen xs) (fun i out => bind (get xs i) (fun x => set out i x)) out) (fun o => zlen o = zlen out /\
    forall i, (0 <= i < zlen out)%Z -> zn d o i = if ((0 <=? i) && (i <? zlen xs))%Z%bool then zn d xs i else zn d out i)).
  { apply W; [lia|pose proof (zlen_nonneg xs); lia|lia|]. intros i o Hi _ _. rewrite (get_ok d) by lia. reflexivity. }
  apply wp_ok in W'. destruct W' as (o & -> & Lo & V). f_equal. apply (list_ext d); [lia|]. intros i Hi. rewrite V by lia.
  replace ((0 <=? i) && (i <? zlen xs))%Z%bool with true by lia. reflexivity.
Qed.
Theorem deriv_zero (xs ys out : list F) : zlen ys = zlen xs -> zlen out = zlen xs -> deriv_out xs ys out 0 = Ok xs /\ deriv xs ys 0 = Ok xs.
Proof.
  intros L1 L2. assert (L3 : zlen (repeat (#0)%num (length xs)) = zlen xs) by (unfold zlen; now rewrite repeat_length).
  unfold deriv, deriv_out. rewrite L1, L2, L3, Z.eqb_refl. cbn [negb Z.eqb]. split; now apply copy_thm.
Qed.
Theorem deriv_refused (xs ys out : list F) order :
  zlen ys <> zlen xs \/ zlen out <> zlen xs \/ ~ In order [0; 2; 4]%Z -> deriv_out xs ys out order = Panic.
Proof.
  intros H. unfold deriv_out. destruct (Z.eqb_spec (zlen ys) (zlen xs)); [|reflexivity]. destruct (Z.eqb_spec (zlen out) (zlen xs)); [|reflexivity].
  cbn [negb]. cbn [In] in H. destruct (Z.eqb_spec order 0); [lia|]. destruct (Z.eqb_spec order 2); [lia|]. destruct (Z.eqb_spec order 4); [lia|reflexivity].
Qed.
Theorem deriv_length (xs ys : list F) order : zlen ys <> zlen xs \/ ~ In order [0; 2; 4]%Z -> deriv xs ys order = Panic.
Proof. intros H. apply deriv_refused. destruct H; auto. Qed.
End Any.

(** Without a destination. *)
Lemma zeros_length (xs : list R) : zlen (repeat (#0)%num (length xs)) = zlen xs.
Proof. unfold zlen. now rewrite repeat_length. Qed.
Lemma deriv2_both xs ys out x0 h a b c : (3 <= zlen xs)%Z -> zlen ys = zlen xs -> zlen out = zlen xs -> h <> 0 -> uniform x0 h xs ->
  (forall i, (0 <= i < zlen xs)%Z -> coord ys i = poly [a; b; c] (coord xs i)) ->
  Forall (fun r => exists d, r = Ok d /\ zlen d = zlen xs /\
    forall i, (0 <= i < zlen xs)%Z -> coord d i = poly (dpoly [a; b; c]) (coord xs i)) [deriv_out xs ys out 2; deriv xs ys 2].
Proof.
  intros H1 H2 H3 H4 H5 H6. constructor; [|constructor; [|constructor]].
  - now apply (deriv2_thm xs ys out x0 h).
  - apply (deriv2_thm xs ys _ x0 h); auto. apply zeros_length.
Qed.
Lemma deriv4_both xs ys out x0 h a b c d e : (5 <= zlen xs)%Z -> zlen ys = zlen xs -> zlen out = zlen xs -> h <> 0 -> uniform x0 h xs ->
  (forall i, (0 <= i < zlen xs)%Z -> coord ys i = poly [a; b; c; d; e] (coord xs i)) ->
  Forall (fun r => exists o, r = Ok o /\ zlen o = zlen xs /\
    forall i, (0 <= i < zlen xs)%Z -> coord o i =
      (if ((2 <=? i) && (i <? zlen xs - 2))%Z%bool then 4 / 3 else 1) * poly (dpoly [a; b; c; d; e]) (coord xs i)) [deriv_out xs ys out 4; deriv xs ys 4].
Proof.
  intros H1 H2 H3 H4 H5 H6. constructor; [|constructor; [|constructor]].
  - now apply (deriv4_thm xs ys out x0 h).
  - apply (deriv4_thm xs ys _ x0 h); auto. apply zeros_length.
Qed.
