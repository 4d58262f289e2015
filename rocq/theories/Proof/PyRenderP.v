(** The layers a picture shows. *)
From Coq Require Import ZArith List Bool Reals Lra Lia ZifyBool ZifyNat.
From Verif Require Import Base.Res Base.ResFacts Base.Num Model.Geom Model.PyGrid Model.PyRender Spec.Slabs.
Import ListNotations.
Open Scope Z_scope.

Lemma fold_sum (l : list R) acc : fold_left nadd l acc = (acc + fold_right Rplus 0 l)%R.
Proof.
  revert acc. induction l as [|x l IH]; intros acc; cbn [fold_left fold_right]; [lra|]. rewrite IH. cbn. lra.
Qed.

Lemma mean_layers f lo k : 0 < k -> np_mean (map f (map (fun i => lo + Z.of_nat i) (seq 0 (Z.to_nat k)))) = Some (layers_mean f lo k).
Proof.
  intros Hk. unfold layers_mean. rewrite map_map. set (l := map _ _).
  assert (L : length l = Z.to_nat k) by (unfold l; now rewrite map_length, seq_length).
  unfold np_mean. rewrite fold_sum, L. destruct l as [|x l]; [cbn in L; lia|].
  f_equal. rewrite Z2Nat.id by lia. cbn [ndiv RNum nofZ]. f_equal. cbn. lra.
Qed.

Lemma picture_layers (d : dim) depth (a : cube R) nz ny nx u v lo k : cb_shape a = [nz; ny; nx] ->
  slice_bound (thickness d a) (middle (thickness d a) - depth / 2) = lo ->
  slice_bound (thickness d a) (middle (thickness d a) + depth / 2 + 1) = lo + k -> 0 < k ->
  picture d depth a u v = Some (layers_mean (layer d a u v) lo k).
Proof.
  intros HS H1 H2 Hk. unfold picture.
  replace (nth (Z.to_nat (axis_of d)) (cb_shape a) 0) with (thickness d a) by (unfold thickness; rewrite HS; destruct d; reflexivity).
  unfold layers. rewrite H1, H2. replace (lo + k - lo) with k by lia.
  rewrite <- mean_layers by exact Hk. destruct d; reflexivity.
Qed.

Lemma bound_in n i : 0 <= i <= n -> slice_bound n i = i.
Proof. unfold slice_bound. destruct (i <? 0) eqn:E; lia. Qed.
Lemma bound_over n i : 0 <= n <= i -> slice_bound n i = n.
Proof. unfold slice_bound. destruct (i <? 0) eqn:E; lia. Qed.

Theorem odd_thm d depth (a : cube R) nz ny nx u v : cb_shape a = [nz; ny; nx] -> 1 <= depth <= thickness d a -> Z.Odd depth ->
  exists lo, 0 <= lo /\ lo + depth <= thickness d a /\ -1 <= 2 * lo + depth - thickness d a <= 1 /\
    picture d depth a u v = Some (layers_mean (layer d a u v) lo depth).
Proof.
  intros HS HD [h ->]. set (n := thickness d a) in *.
  assert (E : (2 * h + 1) / 2 = h) by (symmetry; apply (Z.div_unique _ _ _ 1); lia).
  pose proof (Z.div_mod n 2 ltac:(lia)). pose proof (Z.mod_pos_bound n 2 ltac:(lia)).
  exists (n / 2 - h). split; [lia|]. split; [lia|]. split; [lia|].
  apply (picture_layers d _ a nz ny nx); try assumption; try lia; unfold middle; fold n; rewrite E.
  - apply bound_in. lia.
  - rewrite bound_in by lia. lia.
Qed.

Theorem even_thm d depth (a : cube R) nz ny nx u v : cb_shape a = [nz; ny; nx] -> 0 <= depth < thickness d a -> Z.Even depth ->
  exists lo, 0 <= lo /\ lo + depth + 1 <= thickness d a /\
    picture d depth a u v = Some (layers_mean (layer d a u v) lo (depth + 1)).
Proof.
  intros HS HD [h ->]. set (n := thickness d a) in *.
  assert (E : (2 * h) / 2 = h) by (symmetry; apply (Z.div_unique _ _ _ 0); lia).
  pose proof (Z.div_mod n 2 ltac:(lia)). pose proof (Z.mod_pos_bound n 2 ltac:(lia)).
  exists (n / 2 - h). split; [lia|]. split; [lia|].
  apply (picture_layers d _ a nz ny nx); try assumption; try lia; unfold middle; fold n; rewrite E.
  - apply bound_in. lia.
  - rewrite bound_in by lia. lia.
Qed.

Theorem whole_thm d (a : cube R) nz ny nx u v : cb_shape a = [nz; ny; nx] -> 0 < thickness d a ->
  picture d (thickness d a) a u v = Some (layers_mean (layer d a u v) 0 (thickness d a)).
Proof.
  intros HS Hn. set (n := thickness d a) in *.
  pose proof (Z.div_mod n 2 ltac:(lia)). pose proof (Z.mod_pos_bound n 2 ltac:(lia)).
  apply (picture_layers d _ a nz ny nx); try assumption; unfold middle; fold n.
  - rewrite bound_in by lia. lia.
  - rewrite bound_over by lia. lia.
Qed.

Theorem deep_thm d depth k (a : cube R) nz ny nx u v : cb_shape a = [nz; ny; nx] -> 0 < thickness d a ->
  1 <= k <= thickness d a -> depth / 2 = thickness d a / 2 + k ->
  picture d depth a u v = Some (layers_mean (layer d a u v) (thickness d a - k) k).
Proof.
  intros HS Hn Hk HD. set (n := thickness d a) in *.
  pose proof (Z.div_mod n 2 ltac:(lia)). pose proof (Z.mod_pos_bound n 2 ltac:(lia)).
  apply (picture_layers d _ a nz ny nx); try assumption; try lia; unfold middle; fold n; rewrite HD.
  - unfold slice_bound. destruct (_ <? 0) eqn:E; lia.
  - rewrite bound_over by lia. lia.
Qed.

Definition mirror (d : dim) : dim := match d with DimX => DimZ | DimY => DimY | DimZ => DimX end.

Lemma title_is d (a : cube R) nz ny nx ox oy oz pw : cb_shape a = [nz; ny; nx] ->
  title_middle d a [ox; oy; oz] pw = (corner d [ox; oy; oz] + IZR (thickness (mirror d) a / 2) * pw)%R.
Proof. intros HS. unfold title_middle, middle, thickness. rewrite HS. destruct d; reflexivity. Qed.

Theorem title_in d depth (a : cube R) nz ny nx ox oy oz pw : cb_shape a = [nz; ny; nx] -> 1 <= depth <= thickness d a -> Z.Odd depth ->
  (0 < pw)%R -> d = DimY \/ nz / 2 = nx / 2 ->
  exists lo, (forall u v, picture d depth a u v = Some (layers_mean (layer d a u v) lo depth)) /\
    (corner d [ox; oy; oz] + IZR lo * pw <= title_middle d a [ox; oy; oz] pw < corner d [ox; oy; oz] + IZR (lo + depth) * pw)%R /\
    (title_depth depth pw = IZR (lo + depth) * pw - IZR lo * pw)%R.
Proof.
  intros HS HD [h ->] HP HC. rewrite (title_is d a nz ny nx) by assumption.
  assert (HM : thickness (mirror d) a / 2 = thickness d a / 2) by (unfold thickness; rewrite HS; destruct HC as [->|HC]; [reflexivity|destruct d; cbn; congruence]).
  rewrite HM. set (n := thickness d a) in *.
  assert (E : (2 * h + 1) / 2 = h) by (symmetry; apply (Z.div_unique _ _ _ 1); lia).
  pose proof (Z.div_mod n 2 ltac:(lia)). pose proof (Z.mod_pos_bound n 2 ltac:(lia)).
  exists (n / 2 - h). split.
  - intros u v. apply (picture_layers d _ a nz ny nx); try assumption; try lia; unfold middle; fold n; rewrite E.
    + apply bound_in. lia.
    + rewrite bound_in by lia. lia.
  - assert (IZR (n / 2 - h) <= IZR (n / 2))%R by (apply IZR_le; lia).
    assert (IZR (n / 2) < IZR (n / 2 - h + (2 * h + 1)))%R by (apply IZR_lt; lia). split; [nra|].
    unfold title_depth. cbn [nmul nofZ RNum]. rewrite (plus_IZR (n / 2 - h)). ring.
Qed.

Theorem title_out (a : cube R) nz ny nx ox oy oz pw : cb_shape a = [nz; ny; nx] -> (0 < pw)%R -> 0 <= nz -> 0 <= nx ->
  (2 * nz + 2 <= nx -> (corner DimZ [ox; oy; oz] + IZR nz * pw < title_middle DimZ a [ox; oy; oz] pw)%R) /\
  (2 * nx + 2 <= nz -> (corner DimX [ox; oy; oz] + IZR nx * pw < title_middle DimX a [ox; oy; oz] pw)%R).
Proof.
  intros HS HP H1 H2. rewrite !(title_is _ a nz ny nx) by assumption. unfold mirror, thickness. rewrite HS.
  split; intros H.
  - assert (nz < nx / 2) by (assert (nz + 1 <= nx / 2) by (apply Z.div_le_lower_bound; lia); lia).
    assert (IZR nz < IZR (nx / 2))%R by (now apply IZR_lt). nra.
  - assert (nx < nz / 2) by (assert (nx + 1 <= nz / 2) by (apply Z.div_le_lower_bound; lia); lia).
    assert (IZR nx < IZR (nz / 2))%R by (now apply IZR_lt). nra.
Qed.

Theorem extent_thm d (a : cube R) nz ny nx ox oy oz pw u v : cb_shape a = [nz; ny; nx] -> 0 < nz -> 0 < ny -> 0 < nx ->
  imshow_at (extent d [ox; oy; oz] [IZR nx * pw; IZR ny * pw; IZR nz * pw]%R) (rows d a) (columns d a) u v =
  (across d [ox; oy; oz] + (IZR v + 1 / 2) * pw, Slabs.down d [ox; oy; oz] + (IZR u + 1 / 2) * pw)%R.
Proof.
  intros HS Hz Hy Hx. apply IZR_lt in Hz, Hy, Hx.
  unfold imshow_at, extent, rows, columns, across, Slabs.down, thickness. rewrite HS.
  destruct d; cbn [nth corner nadd nsub nmul ndiv nofZ RNum]; rewrite ?plus_IZR, ?mult_IZR; f_equal; field; lra.
Qed.

Theorem projected_thm d axis nx ny nz ox oy oz pw u v : 0 <= axis <= 2 -> accepts axis d = true -> 0 < nz -> 0 < ny -> 0 < nx -> (0 < pw)%R ->
  let origin := [ox; oy; oz] in
  let span := [IZR nx * pw; IZR ny * pw; IZR nz * pw]%R in
  axis = header_axis d /\
  (exists nr nc, snd (grid_shape axis (V3 nx ny nz)) = Some [nr; nc] /\
    imshow_at (extent d origin span) nr nc u v = (across d origin + (IZR v + 1 / 2) * pw, Slabs.down d origin + (IZR u + 1 / 2) * pw)%R) /\
  (2 * (projected_middle d origin span - corner d origin) = corner d span)%R /\
  projected_depth d span pw = corner d span.
Proof.
  intros HA HC Hz Hy Hx HP origin span.
  assert (E : axis = header_axis d) by (unfold accepts, axis_x, axis_of in HC; unfold header_axis; destruct d; lia).
  split; [exact E|]. split; [|split].
  - pose (a := Cube [nz; ny; nx] (fun _ _ _ => 0%R)). exists (rows d a), (columns d a). split.
    + rewrite E. destruct d; reflexivity.
    + now apply (extent_thm d a nz ny nx).
  - unfold projected_middle, origin, span. destruct d; simpl; lra.
  - unfold projected_depth, span. destruct d; simpl; field; lra.
Qed.
