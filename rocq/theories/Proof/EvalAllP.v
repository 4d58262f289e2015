(** EvalAll returns the value of Eval at every point. *)
From Coq Require Import ZArith List Lia Reals.
From Coq Require Import ZifyBool ZifyNat.
From Verif Require Import Base.Res Base.Num Base.ResFacts Model.Interp Model.Spline Model.EvalAll Spec.Cubic
  Spec.EvalMany Proof.CubicP.
Import ListNotations.
Open Scope Z_scope.
Open Scope res_scope.

Section Loop.
Context {F : Type} {NF : Num F} {S A : Type}.
Variable ev : S -> A -> res (F * S).
Variable arg : Z -> res A.
Variable Inv : S -> Prop.
Variable value : A -> res F.
Hypothesis fwd : forall s p v s', Inv s -> ev s p = Ok (v, s') -> value p = Ok v /\ Inv s'.
Hypothesis bwd : forall s p v, Inv s -> value p = Ok v -> exists s', ev s p = Ok (v, s').

Let body := fun i '(out, s) => a <- arg i ;; '(v, s) <- ev s a ;; out <- set out i v ;; Ok (out, s).

Lemma upd_next (vs : list F) r rest v : upd (vs ++ r :: rest) (length vs) v = (vs ++ [v]) ++ rest.
Proof. induction vs; cbn [app length upd]; [reflexivity|]. now rewrite IHvs. Qed.

Lemma run_fwd pts : forall k vs rest s out s', zlen vs = k -> Inv s ->
  (forall j p, nth_error pts j = Some p -> arg (k + Z.of_nat j) = Ok p) ->
  for_ k (k + zlen pts) body (vs ++ rest, s) = Ok (out, s') ->
  exists ws, Forall2 (fun p v => value p = Ok v) pts ws /\ (length pts <= length rest)%nat /\
    out = vs ++ ws ++ skipn (length pts) rest /\ Inv s'.
Proof using fwd.
  clear bwd.
  induction pts as [|p pts IH]; intros k vs rest s out s' K I HA E.
  - rewrite for_empty in E by (unfold zlen; cbn; lia). injection E as <- <-. exists [].
    split; [constructor|]. cbn. auto with arith.
  - unfold zlen in E. cbn [length] in E. rewrite for_step in E by lia. cbn beta iota in E.
    unfold body at 1 in E.
    pose proof (HA O p eq_refl) as A0. replace (k + Z.of_nat 0) with k in A0 by lia. rewrite A0 in E. cbn [bind] in E.
    destruct (ev s p) as [[v s1]| | |] eqn:EV; cbn [bind] in E; try discriminate.
    destruct (fwd _ _ _ _ I EV) as [V I1].
    destruct rest as [|r rest].
    { rewrite app_nil_r, set_panic in E by lia. discriminate. }
    rewrite set_ok in E by (unfold zlen in *; rewrite app_length; cbn [length]; lia).
    replace (Z.to_nat k) with (length vs) in E by (unfold zlen in K; lia). rewrite upd_next in E. cbn [bind] in E.
    replace (k + Z.of_nat (Datatypes.S (length pts))) with (k + 1 + zlen pts) in E by (unfold zlen; lia).
    destruct (IH (k + 1) (vs ++ [v]) rest s1 out s') as [ws [F2 [L [EO I2]]]]; auto.
    { unfold zlen in *. rewrite app_length. cbn. lia. }
    { intros j q Q. specialize (HA (Datatypes.S j) q Q). rewrite <- HA. f_equal. lia. }
    exists (v :: ws). split; [constructor; auto|]. split; [cbn; lia|]. split; [|auto].
    rewrite EO, <- app_assoc. reflexivity.
Qed.

Lemma run_bwd pts : forall k vs rest s ws, zlen vs = k -> Inv s ->
  (forall j p, nth_error pts j = Some p -> arg (k + Z.of_nat j) = Ok p) ->
  Forall2 (fun p v => value p = Ok v) pts ws -> (length pts <= length rest)%nat ->
  exists s', for_ k (k + zlen pts) body (vs ++ rest, s) = Ok (vs ++ ws ++ skipn (length pts) rest, s').
Proof using fwd bwd.
  induction pts as [|p pts IH]; intros k vs rest s ws K I HA F2 L.
  - rewrite for_empty by (unfold zlen; cbn; lia). inversion F2; subst. eexists. reflexivity.
  - inversion F2 as [|p' v pts' ws' V F2']; subst p' pts' ws. unfold zlen. cbn [length] in *. rewrite for_step by lia.
    unfold body at 1.
    pose proof (HA O p eq_refl) as A0. replace (k + Z.of_nat 0) with k in A0 by lia. rewrite A0. cbn [bind].
    destruct (bwd _ _ _ I V) as [s1 EV]. rewrite EV. cbn [bind].
    destruct (fwd _ _ _ _ I EV) as [_ I1].
    destruct rest as [|r rest]; [cbn in L; lia|].
    rewrite set_ok by (unfold zlen in *; rewrite app_length; cbn [length]; lia).
    replace (Z.to_nat k) with (length vs) by (unfold zlen in K; lia). rewrite upd_next. cbn [bind].
    replace (k + Z.of_nat (Datatypes.S (length pts))) with (k + 1 + zlen pts) by (unfold zlen; lia).
    destruct (IH (k + 1) (vs ++ [v]) rest s1 ws') as [s2 E2]; auto.
    { unfold zlen in *. rewrite app_length. cbn. lia. }
    { intros j q Q. specialize (HA (Datatypes.S j) q Q). rewrite <- HA. f_equal. lia. }
    { cbn in L. lia. }
    exists s2. rewrite E2. f_equal. f_equal. rewrite <- app_assoc. reflexivity.
Qed.

Lemma loop_fwd pts s dst out s' : Inv s -> (forall j p, nth_error pts j = Some p -> arg (Z.of_nat j) = Ok p) ->
  eval_loop ev arg (zlen pts) s dst = Ok (out, s') -> evaluated value pts dst out /\ Inv s'.
Proof using fwd.
  intros I HA E. destruct (run_fwd pts 0 [] dst s out s' eq_refl I) as [ws [F2 [L [EO I']]]]; auto.
  split; [|auto]. exists ws. auto.
Qed.

Lemma loop_bwd pts s dst out : Inv s -> (forall j p, nth_error pts j = Some p -> arg (Z.of_nat j) = Ok p) ->
  evaluated value pts dst out -> exists s', eval_loop ev arg (zlen pts) s dst = Ok (out, s').
Proof using fwd bwd.
  intros I HA [ws [F2 [L EO]]]. destruct (run_bwd pts 0 [] dst s ws eq_refl I) as [s' E]; auto.
  exists s'. unfold eval_loop. cbn [app] in E. rewrite EO. exact E.
Qed.
End Loop.

Lemma loop_args {F S A} {NF : Num F} (ev : S -> A -> res (F * S)) arg n s dst r i : 0 <= i < n ->
  eval_loop ev arg n s dst = Ok r -> exists a, arg i = Ok a.
Proof.
  intros H E. unfold eval_loop in E. rewrite (for_split 0 i n) in E by lia.
  destruct (for_ 0 i _ _) as [[o t]| | |]; cbn [bind] in E; try discriminate.
  rewrite for_step in E by lia. destruct (arg i) as [a| | |]; cbn [bind] in E; try discriminate. eauto.
Qed.

Lemma nth_get {A} (l : list A) j p : nth_error l j = Some p -> get l (Z.of_nat j) = Ok p.
Proof.
  intros H. unfold get. destruct (Z.ltb_spec (Z.of_nat j) 0); [lia|]. now rewrite Nat2Z.id, H.
Qed.

Lemma nth_combine {A B} (xs : list A) (ys : list B) : forall j p, nth_error (combine xs ys) j = Some p ->
  nth_error xs j = Some (fst p) /\ nth_error ys j = Some (snd p).
Proof.
  revert ys. induction xs as [|x xs IH]; intros [|y ys] [|j] p H; try discriminate; cbn in *.
  - injection H as <-. auto.
  - apply IH, H.
Qed.

Lemma arg2 {A B} (xs : list A) (ys : list B) j p : nth_error (combine xs ys) j = Some p ->
  (x <- get xs (Z.of_nat j) ;; y <- get ys (Z.of_nat j) ;; Ok (x, y)) = Ok p.
Proof.
  intros H. destruct (nth_combine _ _ _ _ H) as [H1 H2]. rewrite (nth_get _ _ _ H1), (nth_get _ _ _ H2).
  destruct p; reflexivity.
Qed.

Lemma arg3 {A B C} (xs : list A) (ys : list B) (zs : list C) j p : nth_error (combine (combine xs ys) zs) j = Some p ->
  (x <- get xs (Z.of_nat j) ;; y <- get ys (Z.of_nat j) ;; z <- get zs (Z.of_nat j) ;; Ok (x, y, z)) = Ok p.
Proof.
  intros H. destruct (nth_combine _ _ _ _ H) as [H1 H2]. destruct (nth_combine _ _ _ _ H1) as [H3 H4].
  rewrite (nth_get _ _ _ H2), (nth_get _ _ _ H3), (nth_get _ _ _ H4). destruct p as [[x y] z]; reflexivity.
Qed.

Lemma dst_receives {F A} {NF : Num F} (xs : list A) (given : option (list F)) : receives xs given (first_out xs given).
Proof. destruct given; cbn; [reflexivity|apply repeat_length]. Qed.

Lemma receives_evaluated {F A B} {NF : Num F} (value : B -> res F) (xs : list A) pts given dst out :
  length pts = length xs -> receives xs given dst -> evaluated value pts dst out ->
  evaluated value pts (first_out xs given) out.
Proof.
  intros L R [vs [F2 [L2 E]]]. destruct given as [o|]; cbn in R |- *; [subst dst; exists vs; auto|].
  exists vs. split; [exact F2|]. rewrite repeat_length. split; [lia|].
  rewrite skipn_all2 in E by lia. rewrite skipn_all2 by (rewrite repeat_length; lia). exact E.
Qed.

(** Interpolators that do not change. *)
Section Pure.
Context {F : Type} {NF : Num F} {S A B : Type}.
Variables (ev : S -> A -> res (F * S)) (value : A -> res F) (s : S).
Hypothesis ev_value : forall p, ev s p = (v <- value p ;; Ok (v, s)).

Lemma pure_loop arg (xs : list B) pts given out : length pts = length xs ->
  (forall j p, nth_error pts j = Some p -> arg (Z.of_nat j) = Ok p) ->
  ('(out, _) <- eval_loop ev arg (zlen xs) s (first_out xs given) ;; Ok out) = Ok out <->
  exists dst, receives xs given dst /\ evaluated value pts dst out.
Proof using ev_value.
  intros L HA. replace (zlen xs) with (zlen pts) by (unfold zlen; lia).
  assert (FW : forall t p v t', t = s -> ev t p = Ok (v, t') -> value p = Ok v /\ t' = s).
  { intros t p v t' -> E. rewrite ev_value in E. destruct (value p); try discriminate. injection E as <- <-. auto. }
  assert (BW : forall t p v, t = s -> value p = Ok v -> exists t', ev t p = Ok (v, t')).
  { intros t p v -> E. exists s. now rewrite ev_value, E. }
  split.
  - intros E. destruct (eval_loop _ _ _ _ _) as [[o t]| | |] eqn:EL; try discriminate. cbn [bind] in E.
    injection E as ->. exists (first_out xs given). split; [apply dst_receives|].
    now apply (loop_fwd ev arg (fun t => t = s) value FW pts s (first_out xs given) out t).
  - intros [dst [R E]]. apply (receives_evaluated _ xs _ given) in E; auto.
    destruct (loop_bwd ev arg (fun t => t = s) value FW BW pts s _ _ eq_refl HA E) as [t ET]. rewrite ET. reflexivity.
Qed.
End Pure.

Lemma linear_all {F} {NF : Num F} (l : linear F) xs given out :
  linear_eval_all l xs given = Ok out <->
  exists dst, receives xs given dst /\ evaluated (linear_eval l) xs dst out.
Proof. apply pure_loop; auto. apply nth_get. Qed.

Lemma spline_all {F} {NF : Num F} (sp : spline F) xs given out :
  spline_eval_all sp xs given = Ok out <->
  exists dst, receives xs given dst /\ evaluated (spline_eval sp) xs dst out.
Proof. apply pure_loop; auto. apply nth_get. Qed.

Lemma short2 {F S} {NF : Num F} (ev : S -> F * F -> res (F * S)) (xs ys : list F) s dst r :
  eval_loop ev (fun i => x <- get xs i ;; y <- get ys i ;; Ok (x, y)) (zlen xs) s dst = Ok r ->
  (length xs <= length ys)%nat.
Proof.
  intros E. destruct (Nat.le_gt_cases (length xs) (length ys)) as [|G]; [auto|exfalso].
  assert (HI : 0 <= zlen ys < zlen xs) by (unfold zlen; lia).
  destruct (loop_args ev _ _ _ _ _ (zlen ys) HI E) as [a HA].
  rewrite (get_panic ys) in HA by lia. destruct (get xs _); discriminate.
Qed.

Lemma short3 {F S} {NF : Num F} (ev : S -> F * F * F -> res (F * S)) (xs ys zs : list F) s dst r :
  eval_loop ev (fun i => x <- get xs i ;; y <- get ys i ;; z <- get zs i ;; Ok (x, y, z)) (zlen xs) s dst = Ok r ->
  (length xs <= length ys)%nat /\ (length xs <= length zs)%nat.
Proof.
  intros E. split.
  - destruct (Nat.le_gt_cases (length xs) (length ys)) as [|G]; [auto|exfalso].
    assert (HI : 0 <= zlen ys < zlen xs) by (unfold zlen; lia).
  destruct (loop_args ev _ _ _ _ _ (zlen ys) HI E) as [a HA].
    rewrite (get_panic ys) in HA by lia. destruct (get xs _); discriminate.
  - destruct (Nat.le_gt_cases (length xs) (length zs)) as [|G]; [auto|exfalso].
    assert (HI : 0 <= zlen zs < zlen xs) by (unfold zlen; lia).
  destruct (loop_args ev _ _ _ _ _ (zlen zs) HI E) as [a HA].
    rewrite (get_panic zs) in HA by lia. destruct (get xs _), (get ys _); discriminate.
Qed.

Lemma bilinear_all {F} {NF : Num F} (b : bilinear F) xs ys given out :
  bilinear_eval_all b xs ys given = Ok out <->
  (length xs <= length ys)%nat /\ exists dst, receives xs given dst /\
    evaluated (fun p => bilinear_eval b (fst p) (snd p)) (combine xs ys) dst out.
Proof.
  split.
  - intros E. assert (L : (length xs <= length ys)%nat).
    { unfold bilinear_eval_all in E. destruct (eval_loop _ _ _ _ _) as [r| | |] eqn:EL; try discriminate.
      eapply short2, EL. }
    split; [exact L|]. refine (proj1 (pure_loop (fun b '(x, y) => v <- bilinear_eval b x y ;; Ok (v, b)) (fun p => bilinear_eval b (fst p) (snd p)) b _ _ xs _ given out _ (arg2 xs ys)) E).
    + now intros [x y].
    + rewrite combine_length. lia.
  - intros [L E]. refine (proj2 (pure_loop (fun b '(x, y) => v <- bilinear_eval b x y ;; Ok (v, b)) (fun p => bilinear_eval b (fst p) (snd p)) b _ _ xs _ given out _ (arg2 xs ys)) E).
    + now intros [x y].
    + rewrite combine_length. lia.
Qed.

Lemma trilinear_all {F} {NF : Num F} (t : trilinear F) xs ys zs given out :
  trilinear_eval_all t xs ys zs given = Ok out <->
  (length xs <= length ys)%nat /\ (length xs <= length zs)%nat /\ exists dst, receives xs given dst /\
    evaluated (fun p => trilinear_eval t (fst (fst p)) (snd (fst p)) (snd p)) (combine (combine xs ys) zs) dst out.
Proof.
  split.
  - intros E. assert (L : (length xs <= length ys)%nat /\ (length xs <= length zs)%nat).
    { unfold trilinear_eval_all in E. destruct (eval_loop _ _ _ _ _) as [r| | |] eqn:EL; try discriminate.
      eapply short3, EL. }
    destruct L as [L1 L2]. split; [exact L1|]. split; [exact L2|].
    refine (proj1 (pure_loop (fun t '(x, y, z) => v <- trilinear_eval t x y z ;; Ok (v, t)) (fun p => trilinear_eval t (fst (fst p)) (snd (fst p)) (snd p)) t _ _ xs _ given out _ (arg3 xs ys zs)) E).
    + now intros [[x y] z].
    + rewrite !combine_length. lia.
  - intros [L1 [L2 E]]. refine (proj2 (pure_loop (fun t '(x, y, z) => v <- trilinear_eval t x y z ;; Ok (v, t)) (fun p => trilinear_eval t (fst (fst p)) (snd (fst p)) (snd p)) t _ _ xs _ given out _ (arg3 xs ys zs)) E).
    + now intros [[x y] z].
    + rewrite !combine_length. lia.
Qed.

(** Interpolators that remember the last call. *)
Lemma after_more {S C V} (call : S -> C -> res (V * S)) cs : forall s t c v u, after call s cs = Ok t ->
  call t c = Ok (v, u) -> after call s (cs ++ [c]) = Ok u.
Proof.
  induction cs as [|d cs IH]; intros s t c v u A E.
  - injection A as ->. cbn [after app]. rewrite E. reflexivity.
  - cbn [after app] in *. destruct (call s d) as [p| | |]; cbn [bind] in *; try discriminate. eapply IH; eauto.
Qed.

Definition reached {S A V} (call : S -> A -> res (V * S)) (s0 s : S) : Prop := exists cs, after call s0 cs = Ok s.

Section Remember.
Context {S A : Type}.
Variables (ev call : S -> A -> res (R * S)) (s0 : S).
Hypothesis same : forall s p, ev s p = call s p.
Hypothesis history : forall cs s p, after call s0 cs = Ok s -> answer call s p = answer call s0 p.

Lemma rem_fwd s p v s' : reached call s0 s -> ev s p = Ok (v, s') -> answer call s0 p = Ok v /\ reached call s0 s'.
Proof using same history.
  intros [cs H] E. rewrite same in E. split.
  - rewrite <- (history cs s p H). unfold answer. now rewrite E.
  - exists (cs ++ [p]). eapply after_more; eauto.
Qed.

Lemma rem_bwd s p v : reached call s0 s -> answer call s0 p = Ok v -> exists s', ev s p = Ok (v, s').
Proof using same history.
  intros [cs H] E. rewrite <- (history cs s p H) in E. unfold answer in E. rewrite same.
  destruct (call s p) as [[w s']| | |]; cbn [bind] in E; try discriminate. injection E as <-. eexists. reflexivity.
Qed.
End Remember.

Lemma bicubic_all xs0 ys0 vals b cs b' xs ys given out : new_bicubic xs0 ys0 vals = Ok b ->
  after (fun b p => bicubic_eval b (fst p) (snd p)) b cs = Ok b' ->
  (exists b'', bicubic_eval_all b' xs ys given = Ok (out, b'') /\
     exists cs', after (fun b p => bicubic_eval b (fst p) (snd p)) b cs' = Ok b'') <->
  (length xs <= length ys)%nat /\ exists dst, receives xs given dst /\
    evaluated (answer (fun b p => bicubic_eval b (fst p) (snd p)) b) (combine xs ys) dst out.
Proof.
  intros NB AF.
  assert (SAME : forall s (p : R * R), (let '(x, y) := p in bicubic_eval s x y) = bicubic_eval s (fst p) (snd p)) by now intros s [].
  assert (HIS : forall cs s p, after (fun b p => bicubic_eval b (fst p) (snd p)) b cs = Ok s ->
    answer (fun b p => bicubic_eval b (fst p) (snd p)) s p = answer (fun b p => bicubic_eval b (fst p) (snd p)) b p).
  { intros ds s [x y] H. eapply bicubic_history; eauto. }
  pose proof (rem_fwd _ _ b SAME HIS) as FW. pose proof (rem_bwd _ _ b SAME HIS) as BW.
  unfold bicubic_eval_all. split.
  - intros [b'' [E _]]. pose proof (short2 _ _ _ _ _ _ E) as L. split; [exact L|].
    exists (first_out xs given). split; [apply dst_receives|].
    replace (zlen xs) with (zlen (combine xs ys)) in E by (unfold zlen; rewrite combine_length; lia).
    exact (proj1 (loop_fwd (fun b '(x, y) => bicubic_eval b x y) (fun i => x <- get xs i ;; y <- get ys i ;; Ok (x, y)) (reached (fun b p => bicubic_eval b (fst p) (snd p)) b) (answer (fun b p => bicubic_eval b (fst p) (snd p)) b) FW _ _ _ _ _ (ex_intro _ cs AF) (arg2 xs ys) E)).
  - intros [L [dst [RC E]]].
    assert (LC : length (combine xs ys) = length xs) by (rewrite combine_length; lia).
    apply (receives_evaluated _ xs _ given) in E; auto.
    destruct (loop_bwd (fun b '(x, y) => bicubic_eval b x y) (fun i => x <- get xs i ;; y <- get ys i ;; Ok (x, y)) (reached (fun b p => bicubic_eval b (fst p) (snd p)) b) (answer (fun b p => bicubic_eval b (fst p) (snd p)) b) FW BW _ _ _ _ (ex_intro _ cs AF) (arg2 xs ys) E) as [b'' EL].
    replace (zlen (combine xs ys)) with (zlen xs) in EL by (unfold zlen; lia).
    exists b''. split; [exact EL|].
    replace (zlen xs) with (zlen (combine xs ys)) in EL by (unfold zlen; lia).
    exact (proj2 (loop_fwd (fun b '(x, y) => bicubic_eval b x y) (fun i => x <- get xs i ;; y <- get ys i ;; Ok (x, y)) (reached (fun b p => bicubic_eval b (fst p) (snd p)) b) (answer (fun b p => bicubic_eval b (fst p) (snd p)) b) FW _ _ _ _ _ (ex_intro _ cs AF) (arg2 xs ys) EL)).
Qed.

Lemma tricubic_all xs0 ys0 zs0 vals t cs t' xs ys zs given out : new_tricubic xs0 ys0 zs0 vals = Ok t ->
  after (fun t p => tricubic_eval t (fst (fst p)) (snd (fst p)) (snd p)) t cs = Ok t' ->
  (exists t'', tricubic_eval_all t' xs ys zs given = Ok (out, t'') /\
     exists cs', after (fun t p => tricubic_eval t (fst (fst p)) (snd (fst p)) (snd p)) t cs' = Ok t'') <->
  (length xs <= length ys)%nat /\ (length xs <= length zs)%nat /\ exists dst, receives xs given dst /\
    evaluated (answer (fun t p => tricubic_eval t (fst (fst p)) (snd (fst p)) (snd p)) t) (combine (combine xs ys) zs) dst out.
Proof.
  intros NB AF.
  assert (SAME : forall s (p : R * R * R), (let '(x, y, z) := p in tricubic_eval s x y z) =
    tricubic_eval s (fst (fst p)) (snd (fst p)) (snd p)) by now intros s [[] ?].
  assert (HIS : forall cs s p, after (fun t p => tricubic_eval t (fst (fst p)) (snd (fst p)) (snd p)) t cs = Ok s ->
    answer (fun t p => tricubic_eval t (fst (fst p)) (snd (fst p)) (snd p)) s p =
    answer (fun t p => tricubic_eval t (fst (fst p)) (snd (fst p)) (snd p)) t p).
  { intros ds s [[x y] z] H. eapply tricubic_history; eauto. }
  pose proof (rem_fwd _ _ t SAME HIS) as FW. pose proof (rem_bwd _ _ t SAME HIS) as BW.
  unfold tricubic_eval_all. split.
  - intros [t'' [E _]]. pose proof (short3 _ _ _ _ _ _ _ E) as [L1 L2]. split; [exact L1|]. split; [exact L2|].
    exists (first_out xs given). split; [apply dst_receives|].
    replace (zlen xs) with (zlen (combine (combine xs ys) zs)) in E by (unfold zlen; rewrite !combine_length; lia).
    exact (proj1 (loop_fwd (fun t '(x, y, z) => tricubic_eval t x y z) (fun i => x <- get xs i ;; y <- get ys i ;; z <- get zs i ;; Ok (x, y, z)) (reached (fun t p => tricubic_eval t (fst (fst p)) (snd (fst p)) (snd p)) t) (answer (fun t p => tricubic_eval t (fst (fst p)) (snd (fst p)) (snd p)) t) FW _ _ _ _ _ (ex_intro _ cs AF) (arg3 xs ys zs) E)).
  - intros [L1 [L2 [dst [RC E]]]].
    assert (LC : length (combine (combine xs ys) zs) = length xs) by (rewrite !combine_length; lia).
    apply (receives_evaluated _ xs _ given) in E; auto.
    destruct (loop_bwd (fun t '(x, y, z) => tricubic_eval t x y z) (fun i => x <- get xs i ;; y <- get ys i ;; z <- get zs i ;; Ok (x, y, z)) (reached (fun t p => tricubic_eval t (fst (fst p)) (snd (fst p)) (snd p)) t) (answer (fun t p => tricubic_eval t (fst (fst p)) (snd (fst p)) (snd p)) t) FW BW _ _ _ _ (ex_intro _ cs AF) (arg3 xs ys zs) E) as [t'' EL].
    replace (zlen (combine (combine xs ys) zs)) with (zlen xs) in EL by (unfold zlen; lia).
    exists t''. split; [exact EL|].
    replace (zlen xs) with (zlen (combine (combine xs ys) zs)) in EL by (unfold zlen; lia).
    exact (proj2 (loop_fwd (fun t '(x, y, z) => tricubic_eval t x y z) (fun i => x <- get xs i ;; y <- get ys i ;; z <- get zs i ;; Ok (x, y, z)) (reached (fun t p => tricubic_eval t (fst (fst p)) (snd (fst p)) (snd p)) t) (answer (fun t p => tricubic_eval t (fst (fst p)) (snd (fst p)) (snd p)) t) FW _ _ _ _ _ (ex_intro _ cs AF) (arg3 xs ys zs) EL)).
Qed.
