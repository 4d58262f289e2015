(** C16-C27, C183: math/interpolate (linear, bilinear, trilinear, splines, bicubic, tricubic). *)
From Coq Require Import ZArith List Lia Lra Bool Reals.
From Coquelicot Require Import Coquelicot.
From Verif Require Import Base.Res Base.Num Model.Interp Model.Spline Model.EvalAll Spec.Interpolation Spec.Cubic
  Spec.EvalMany Proof.InterpP Proof.TriDiagP Proof.SplineD Proof.CubicP Proof.EvalAllP.
Import ListNotations.
Open Scope R_scope.

(** C16 *)
Theorem C16_linear : forall xs vals x, increasing xs -> (2 <= length xs)%nat -> length vals = length xs ->
  exists l, new_linear xs vals = Ok l /\
    (forall v, linear_eval l x = Ok v <-> on_polyline (combine xs vals) x v) /\
    (in_range_of xs x -> exists v, linear_eval l x = Ok v) /\
    (~ in_range_of xs x -> linear_eval l x = Panic).
Proof. exact linear_ok. Qed.
Print Assumptions C16_linear.

Theorem C16_linear_node : forall xs vals i, increasing xs -> (2 <= length xs)%nat -> length vals = length xs ->
  (i < length xs)%nat ->
  exists l, new_linear xs vals = Ok l /\ linear_eval l (nth i xs 0) = Ok (nth i vals 0).
Proof. exact linear_node. Qed.
Print Assumptions C16_linear_node.

Example C16_example : increasing [-3; 1; 2; 10] /\ (2 <= length ([-3; 1; 2; 10]%R))%nat /\
  length [5; 7; -1; 4] = length [-3; 1; 2; 10] /\
  in_range_of [-3; 1; 2; 10] 6 /\ ~ in_range_of [-3; 1; 2; 10] 11 /\
  on_polyline (combine [-3; 1; 2; 10] [5; 7; -1; 4]) 6 (3 / 2).
Proof.
  split; [cbn; lra|]. split; [cbn; lia|]. split; [reflexivity|]. unfold in_range_of; cbn.
  split; [lra|]. split; [lra|]. exists [(-3, 5); (1, 7)], (2, -1), (10, 4), []. split; [reflexivity|].
  exists (1 / 2). cbn. lra.
Qed.

(** C17: false of the code: every evaluation on every decreasing table panics. *)
Theorem C17_linear_decreasing_refuted : forall xs vals x, decreasing xs -> (2 <= length xs)%nat ->
  length vals = length xs -> exists l, new_linear xs vals = Ok l /\ linear_eval l x = Panic.
Proof. exact linear_decreasing. Qed.
Print Assumptions C17_linear_decreasing_refuted.

Example C17_example : decreasing [3; 1; -2] /\ (2 <= length ([3; 1; -2]%R))%nat /\ -2 <= 2 <= 3.
Proof. split; [cbn; lra|]. split; [cbn; lia|lra]. Qed.

(** C18 *)
Theorem C18_uniform_linear : forall x0 dx vals x, 0 < dx -> (2 <= length vals)%nat ->
  exists l, new_linear (unif_xs x0 dx (length vals)) vals = Ok l /\
    linear_eval (new_uniform_linear x0 dx vals) x = linear_eval l x.
Proof. exact unif_linear_ok. Qed.
Print Assumptions C18_uniform_linear.

Example C18_example : 0 < 1 / 2 /\ (2 <= length ([4; 8; 1]%R))%nat /\
  unif_xs 3 (1 / 2) 3 = [3 + 0 * (1 / 2); 3 + 1 * (1 / 2); 3 + (1 + 1) * (1 / 2)].
Proof. split; [lra|]. split; [cbn; lia|reflexivity]. Qed.

(** C19 *)
Theorem C19_bilinear : forall xs ys rows x y, increasing xs -> increasing ys ->
  (2 <= length xs)%nat -> (2 <= length ys)%nat ->
  length rows = length ys -> rows_of (length xs) rows ->
  exists b, new_bilinear xs ys (concat rows) = Ok b /\
    (forall v, bilinear_eval b x y = Ok v <-> on_bilinear xs ys rows x y v) /\
    (in_range_of xs x /\ in_range_of ys y -> exists v, bilinear_eval b x y = Ok v) /\
    (~ (in_range_of xs x /\ in_range_of ys y) -> bilinear_eval b x y = Panic).
Proof. exact bilinear_ok. Qed.
Print Assumptions C19_bilinear.

Theorem C19_bilinear_node : forall xs ys rows i j, increasing xs -> increasing ys ->
  (2 <= length xs)%nat -> (2 <= length ys)%nat ->
  length rows = length ys -> rows_of (length xs) rows ->
  (i < length xs)%nat -> (j < length ys)%nat ->
  exists b, new_bilinear xs ys (concat rows) = Ok b /\
    bilinear_eval b (nth i xs 0) (nth j ys 0) = Ok (nth i (nth j rows []) 0).
Proof. exact bilinear_node. Qed.
Print Assumptions C19_bilinear_node.

Theorem C19_uniform_bilinear : forall x0 dx nx y0 dy ny rows x y, 0 < dx -> 0 < dy ->
  (2 <= nx)%nat -> (2 <= ny)%nat -> length rows = ny -> rows_of nx rows ->
  exists b b', new_uniform_bilinear x0 dx (Z.of_nat nx) y0 dy (Z.of_nat ny) (concat rows) = Ok b /\
    new_bilinear (unif_xs x0 dx nx) (unif_xs y0 dy ny) (concat rows) = Ok b' /\
    bilinear_eval b x y = bilinear_eval b' x y.
Proof. exact unif_bilinear_ok. Qed.
Print Assumptions C19_uniform_bilinear.

Example C19_example : increasing [0; 1; 3] /\ increasing [-1; 5] /\
  length [[1; 2; 3]; [4; 5; 9]] = length [-1; 5] /\ rows_of (length [0; 1; 3]) [[1; 2; 3]; [4; 5; 9]] /\
  on_bilinear [0; 1; 3] [-1; 5] [[1; 2; 3]; [4; 5; 9]] 2 2 (19 / 4).
Proof.
  split; [cbn; lra|]. split; [cbn; lra|]. split; [reflexivity|]. split; [repeat constructor|].
  exists [5 / 2; 7]. split.
  - constructor; [|constructor; [|constructor]].
    + exists [(0, 1)], (1, 2), (3, 3), []. split; [reflexivity|]. exists (1 / 2). cbn. lra.
    + exists [(0, 4)], (1, 5), (3, 9), []. split; [reflexivity|]. exists (1 / 2). cbn. lra.
  - exists [], (-1, 5 / 2), (5, 7), []. split; [reflexivity|]. exists (1 / 2). cbn. lra.
Qed.

(** C20: false of the code: the fraction along z is computed from the y coordinates. *)
Theorem C20_trilinear_refuted : exists xs ys zs planes i j k,
  increasing xs /\ increasing ys /\ increasing zs /\
  length planes = length zs /\ planes_of (length xs) (length ys) planes /\
  (i < length xs)%nat /\ (j < length ys)%nat /\ (k < length zs)%nat /\
  exists t, new_trilinear xs ys zs (concat (map (@concat R) planes)) = Ok t /\
    trilinear_eval t (nth i xs 0) (nth j ys 0) (nth k zs 0) = Panic.
Proof. exact trilinear_bad. Qed.
Print Assumptions C20_trilinear_refuted.

(** Missing: tables whose z coordinates differ from their y coordinates. *)
Theorem C20_trilinear_partial : forall xs ys planes x y z, increasing xs -> increasing ys ->
  (2 <= length xs)%nat -> (2 <= length ys)%nat ->
  length planes = length ys -> planes_of (length xs) (length ys) planes ->
  exists t, new_trilinear xs ys ys (concat (map (@concat R) planes)) = Ok t /\
    (forall v, trilinear_eval t x y z = Ok v <-> on_trilinear xs ys ys planes x y z v) /\
    (in_range_of xs x /\ in_range_of ys y /\ in_range_of ys z -> exists v, trilinear_eval t x y z = Ok v) /\
    (~ (in_range_of xs x /\ in_range_of ys y /\ in_range_of ys z) -> trilinear_eval t x y z = Panic).
Proof. exact trilinear_ok. Qed.
Print Assumptions C20_trilinear_partial.

Example C20_example : increasing [0; 1; 3] /\ increasing [0; 5] /\
  planes_of (length [0; 1; 3]) (length [0; 5]) [[[1; 2; 3]; [4; 5; 6]]; [[7; 8; 9]; [1; 0; 1]]] /\
  in_range_of [0; 1; 3] 2 /\ in_range_of [0; 5] 4.
Proof.
  split; [cbn; lra|]. split; [cbn; lra|]. split; [repeat constructor|]. unfold in_range_of; cbn. lra.
Qed.

(** C21 *)
Theorem C21_natural_spline : forall xs ys, increasing xs \/ decreasing xs -> (3 <= length xs)%nat ->
  length ys = length xs ->
  exists sp ps, new_spline xs ys = Ok sp /\ natural_spline xs ys ps /\
    (forall i x, (S i < length xs)%nat -> between (nth i xs 0) (nth (S i) xs 0) x ->
       spline_eval sp x = Ok (cubic_at (ps i) x)) /\
    (forall x, ~ between (nth 0 xs 0) (nth (length xs - 1) xs 0) x -> spline_eval sp x = Panic).
Proof. exact spline_natural. Qed.
Print Assumptions C21_natural_spline.

Example C21_example : increasing [0; 1; 3; 4] /\ decreasing [4; 3; 1; 0] /\ (3 <= length ([0; 1; 3; 4]%R))%nat /\
  between 3 1 2 /\ ~ between 4 0 5.
Proof. unfold between. split; [cbn; lra|]. split; [cbn; lra|]. split; [cbn; lia|]. split; lra. Qed.

(** C22: false of the code: every table of two points is rejected with an index panic. *)
Theorem C22_two_points_refuted : forall xs ys, length xs = 2%nat -> new_spline (F := R) xs ys = Panic.
Proof. exact spline_two. Qed.
Print Assumptions C22_two_points_refuted.

Example C22_example : length ([0; 1]%R) = 2%nat /\ increasing [0; 1].
Proof. split; [reflexivity|cbn; lra]. Qed.

(** C23 *)
Theorem C23_derivatives : forall xs ys sp x, increasing xs \/ decreasing xs -> (3 <= length xs)%nat ->
  length ys = length xs -> new_spline xs ys = Ok sp ->
  strictly_between (nth 0 xs 0) (nth (length xs - 1) xs 0) x ->
  spline_deriv sp x 0 = spline_eval sp x /\
  (forall m, (m <= 1)%nat -> exists v, spline_deriv sp x (Z.of_nat (S m)) = Ok v /\
     derivable_pt_lim (fun t => value (spline_deriv sp t (Z.of_nat m))) x v) /\
  (~ In x xs -> exists v, spline_deriv sp x 3 = Ok v /\
     derivable_pt_lim (fun t => value (spline_deriv sp t 2)) x v) /\
  (forall m, (4 <= m)%nat -> spline_deriv sp x (Z.of_nat m) = Ok 0).
Proof. exact spline_derivs. Qed.
Print Assumptions C23_derivatives.

Theorem C23_negative_order : forall sp (x : R) m v, (m < 0)%Z -> spline_deriv sp x m = Ok v -> v = 0.
Proof. exact deriv_negative. Qed.
Print Assumptions C23_negative_order.

Example C23_example : exists sp, new_spline [0; 1; 3] [2; 5; 1] = Ok sp /\
  strictly_between 0 3 1 /\ strictly_between 0 3 2 /\ ~ In 2 [0; 1; 3].
Proof.
  destruct (C21_natural_spline [0; 1; 3] [2; 5; 1]) as [sp [_ [E _]]]; [left; cbn; lra|cbn; lia|reflexivity|].
  exists sp. split; [exact E|]. unfold strictly_between. split; [lra|]. split; [lra|]. cbn. lra.
Qed.

(** C24: false of the code when the lower limit is not a table point. *)
Theorem C24_integral_refuted : exists xs ys sp lo hi v w,
  increasing xs /\ length ys = length xs /\ new_spline xs ys = Ok sp /\
  hd 0 xs <= lo <= hi /\ hi <= last xs 0 /\
  spline_integrate sp lo hi = Ok v /\ is_RInt (fun t => value (spline_eval sp t)) lo hi w /\ v <> w.
Proof. exact spline_integral_bad. Qed.
Print Assumptions C24_integral_refuted.

(** Missing: lower limits between table points. *)
Theorem C24_integral_partial : forall xs ys sp m hi, increasing xs -> (3 <= length xs)%nat ->
  length ys = length xs -> new_spline xs ys = Ok sp -> (m < length xs)%nat ->
  nth m xs 0 <= hi <= last xs 0 ->
  exists v, spline_integrate sp (nth m xs 0) hi = Ok v /\
    is_RInt (fun t => value (spline_eval sp t)) (nth m xs 0) hi v /\
    (nth m xs 0 < hi -> spline_integrate sp hi (nth m xs 0) = Ok (- v)).
Proof. exact spline_integral_knot. Qed.
Print Assumptions C24_integral_partial.

Example C24_example : exists sp, new_spline [0; 1; 3; 7] [2; 5; 1; 1] = Ok sp /\
  (1 < length ([0; 1; 3; 7]%R))%nat /\ nth 1 [0; 1; 3; 7] 0 <= 5 <= last [0; 1; 3; 7] 0.
Proof.
  destruct (C21_natural_spline [0; 1; 3; 7] [2; 5; 1; 1]) as [sp [_ [E _]]]; [left; cbn; lra|cbn; lia|reflexivity|].
  exists sp. split; [exact E|]. split; [cbn; lia|cbn; lra].
Qed.

(** C25 *)
Theorem C25_tridiagonal : forall as_ bs cs rs out u,
  tri_diag_at as_ bs cs rs out = Ok u -> tri_solves as_ bs cs rs u.
Proof. exact tri_diag_solves. Qed.
Print Assumptions C25_tridiagonal.

Theorem C25_tridiagonal_total : forall as_ bs cs rs out, (1 <= length as_)%nat ->
  length bs = length as_ -> length cs = length as_ -> length rs = length as_ -> length out = length as_ ->
  diag_dominant as_ bs cs -> exists u, tri_diag_at as_ bs cs rs out = Ok u.
Proof. exact tri_diag_total. Qed.
Print Assumptions C25_tridiagonal_total.

Example C25_example : diag_dominant [0; 1; 1] [3; -3; 3] [1; 1; 0] /\ length [3; -3; 3] = length [0; 1; 1].
Proof.
  split; [|reflexivity]. intros i Hi. cbn in Hi.
  destruct i as [|[|[|i]]]; cbn; try lia; unfold Rabs; repeat destruct Rcase_abs; lra.
Qed.

(** C26 *)
Theorem C26_bicubic_history : forall xs ys vals b cs b' x y, new_bicubic xs ys vals = Ok b ->
  after (fun b p => bicubic_eval b (fst p) (snd p)) b cs = Ok b' ->
  answer (fun b p => bicubic_eval b (fst p) (snd p)) b' (x, y) =
  answer (fun b p => bicubic_eval b (fst p) (snd p)) b (x, y).
Proof. exact bicubic_history. Qed.
Print Assumptions C26_bicubic_history.

Theorem C26_bicubic_node : forall xs ys rows, increasing xs \/ decreasing xs -> increasing ys \/ decreasing ys ->
  (3 <= length xs)%nat -> (3 <= length ys)%nat -> length rows = length ys -> rows_of (length xs) rows ->
  exists b, new_bicubic xs ys (concat rows) = Ok b /\
  forall i j, (i < length xs)%nat -> (j < length ys)%nat ->
  answer (fun b p => bicubic_eval b (fst p) (snd p)) b (nth i xs 0, nth j ys 0) = Ok (nth i (nth j rows []) 0).
Proof. exact bicubic_node. Qed.
Print Assumptions C26_bicubic_node.

Example C26_example : exists b b',
  new_bicubic [0; 1; 3] [0; 2; 3] (concat [[1; 2; 3]; [4; 5; 6]; [7; 8; 1]]) = Ok b /\
  after (fun b p => bicubic_eval b (fst p) (snd p)) b [(1, 2)] = Ok b'.
Proof.
  destruct (C26_bicubic_node [0; 1; 3] [0; 2; 3] [[1; 2; 3]; [4; 5; 6]; [7; 8; 1]]) as [b [E A]];
    try (left; cbn; lra); try (cbn; lia); try reflexivity.
  { repeat constructor. }
  specialize (A 1%nat 1%nat ltac:(cbn; lia) ltac:(cbn; lia)). unfold answer in A. cbn [nth fst snd] in A.
  exists b. cbn [after fst snd]. destruct (bicubic_eval b 1 2) as [[v b']| | |]; try discriminate.
  exists b'. split; [exact E|reflexivity].
Qed.

(** C27 *)
Theorem C27_tricubic_history : forall xs ys zs vals t cs t' x y z, new_tricubic xs ys zs vals = Ok t ->
  after (fun t p => tricubic_eval t (fst (fst p)) (snd (fst p)) (snd p)) t cs = Ok t' ->
  answer (fun t p => tricubic_eval t (fst (fst p)) (snd (fst p)) (snd p)) t' (x, y, z) =
  answer (fun t p => tricubic_eval t (fst (fst p)) (snd (fst p)) (snd p)) t (x, y, z).
Proof. exact tricubic_history. Qed.
Print Assumptions C27_tricubic_history.

Theorem C27_tricubic_node : forall xs ys zs planes, increasing xs \/ decreasing xs ->
  increasing ys \/ decreasing ys -> increasing zs \/ decreasing zs ->
  (3 <= length xs)%nat -> (3 <= length ys)%nat -> (3 <= length zs)%nat ->
  length planes = length zs -> planes_of (length xs) (length ys) planes ->
  exists t, new_tricubic xs ys zs (concat (map (@concat R) planes)) = Ok t /\
  forall i j k, (i < length xs)%nat -> (j < length ys)%nat -> (k < length zs)%nat ->
  answer (fun t p => tricubic_eval t (fst (fst p)) (snd (fst p)) (snd p)) t (nth i xs 0, nth j ys 0, nth k zs 0) =
  Ok (nth i (nth j (nth k planes []) []) 0).
Proof. exact tricubic_node. Qed.
Print Assumptions C27_tricubic_node.

Example C27_example : exists t t',
  new_tricubic [0; 1; 3] [0; 2; 3] [5; 4; 1] (concat (map (@concat R)
    [[[1; 2; 3]; [4; 5; 6]; [7; 8; 1]]; [[1; 2; 2]; [4; 3; 6]; [7; 0; 1]]; [[1; 9; 3]; [4; 5; 8]; [7; 7; 1]]])) = Ok t /\
  after (fun t p => tricubic_eval t (fst (fst p)) (snd (fst p)) (snd p)) t [(1, 2, 4)] = Ok t'.
Proof.
  destruct (C27_tricubic_node [0; 1; 3] [0; 2; 3] [5; 4; 1]
    [[[1; 2; 3]; [4; 5; 6]; [7; 8; 1]]; [[1; 2; 2]; [4; 3; 6]; [7; 0; 1]]; [[1; 9; 3]; [4; 5; 8]; [7; 7; 1]]]) as [t [E A]];
    try (left; cbn; lra); try (right; cbn; lra); try (cbn; lia); try reflexivity.
  { repeat constructor. }
  specialize (A 1%nat 1%nat 1%nat ltac:(cbn; lia) ltac:(cbn; lia) ltac:(cbn; lia)). unfold answer in A. cbn [nth fst snd] in A.
  exists t. cbn [after fst snd]. destruct (tricubic_eval t 1 2 4) as [[v t']| | |]; try discriminate.
  exists t'. split; [exact E|reflexivity].
Qed.

(** C183: EvalAll gives the value of Eval at every point.  In any arithmetic for
    the interpolators that do not change. *)
Theorem C183_linear : forall {F} {NF : Num F} (l : linear F) xs given out,
  linear_eval_all l xs given = Ok out <->
  exists dst, receives xs given dst /\ evaluated (linear_eval l) xs dst out.
Proof. exact @linear_all. Qed.
Print Assumptions C183_linear.

Theorem C183_bilinear : forall {F} {NF : Num F} (b : bilinear F) xs ys given out,
  bilinear_eval_all b xs ys given = Ok out <->
  (length xs <= length ys)%nat /\ exists dst, receives xs given dst /\
    evaluated (fun p => bilinear_eval b (fst p) (snd p)) (combine xs ys) dst out.
Proof. exact @bilinear_all. Qed.
Print Assumptions C183_bilinear.

Theorem C183_trilinear : forall {F} {NF : Num F} (t : trilinear F) xs ys zs given out,
  trilinear_eval_all t xs ys zs given = Ok out <->
  (length xs <= length ys)%nat /\ (length xs <= length zs)%nat /\ exists dst, receives xs given dst /\
    evaluated (fun p => trilinear_eval t (fst (fst p)) (snd (fst p)) (snd p)) (combine (combine xs ys) zs) dst out.
Proof. exact @trilinear_all. Qed.
Print Assumptions C183_trilinear.

Theorem C183_spline : forall {F} {NF : Num F} (sp : spline F) xs given out,
  spline_eval_all sp xs given = Ok out <->
  exists dst, receives xs given dst /\ evaluated (spline_eval sp) xs dst out.
Proof. exact @spline_all. Qed.
Print Assumptions C183_spline.

(** The interpolators that remember the last call: the values are those of the
    new interpolator, whatever was evaluated before, and the interpolator left
    behind is again one that single calls could have produced. *)
Theorem C183_bicubic : forall xs0 ys0 vals b cs b' xs ys given out, new_bicubic xs0 ys0 vals = Ok b ->
  after (fun b p => bicubic_eval b (fst p) (snd p)) b cs = Ok b' ->
  (exists b'', bicubic_eval_all b' xs ys given = Ok (out, b'') /\
     exists cs', after (fun b p => bicubic_eval b (fst p) (snd p)) b cs' = Ok b'') <->
  (length xs <= length ys)%nat /\ exists dst, receives xs given dst /\
    evaluated (answer (fun b p => bicubic_eval b (fst p) (snd p)) b) (combine xs ys) dst out.
Proof. exact bicubic_all. Qed.
Print Assumptions C183_bicubic.

Theorem C183_tricubic : forall xs0 ys0 zs0 vals t cs t' xs ys zs given out, new_tricubic xs0 ys0 zs0 vals = Ok t ->
  after (fun t p => tricubic_eval t (fst (fst p)) (snd (fst p)) (snd p)) t cs = Ok t' ->
  (exists t'', tricubic_eval_all t' xs ys zs given = Ok (out, t'') /\
     exists cs', after (fun t p => tricubic_eval t (fst (fst p)) (snd (fst p)) (snd p)) t cs' = Ok t'') <->
  (length xs <= length ys)%nat /\ (length xs <= length zs)%nat /\ exists dst, receives xs given dst /\
    evaluated (answer (fun t p => tricubic_eval t (fst (fst p)) (snd (fst p)) (snd p)) t) (combine (combine xs ys) zs) dst out.
Proof. exact tricubic_all. Qed.
Print Assumptions C183_tricubic.

Example C183_example : exists b,
  new_bicubic [0; 1; 3] [0; 2; 3] (concat [[1; 2; 3]; [4; 5; 6]; [7; 8; 1]]) = Ok b /\
  exists b', bicubic_eval_all b [1; 3] [2; 0; 5] (Some [9; 9; 7]) = Ok ([5; 3; 7], b').
Proof.
  destruct (C26_bicubic_node [0; 1; 3] [0; 2; 3] [[1; 2; 3]; [4; 5; 6]; [7; 8; 1]]) as [b [E A]];
    try (left; cbn; lra); try (cbn; lia); try reflexivity.
  { repeat constructor. }
  exists b. split; [exact E|].
  pose proof (A 1%nat 1%nat ltac:(cbn; lia) ltac:(cbn; lia)) as A1.
  pose proof (A 2%nat 0%nat ltac:(cbn; lia) ltac:(cbn; lia)) as A2.
  destruct (C183_bicubic _ _ _ b [] b [1; 3] [2; 0; 5] (Some [9; 9; 7]) [5; 3; 7] E eq_refl) as [_ H].
  destruct H as [b' [E' _]]; [|exists b'; exact E'].
  split; [cbn; lia|]. exists [9; 9; 7]. split; [reflexivity|]. exists [5; 3].
  split; [|split; [cbn; lia|reflexivity]].
  constructor; [exact A1|]. constructor; [exact A2|constructor].
Qed.
