(** Rendering (render/render.go, render/box.go, render/density). *)
From Coq Require Import ZArith List Reals Lra Lia Permutation String.
From Flocq Require Import Core.Raux.
From Verif Require Import Base.Res Base.Num Base.IEEE Base.Convert Model.Geom Model.GridDeriv Model.Density Model.Box Model.Render.
From Verif Require Import Spec.Geometry Spec.GeomDefs Spec.Fields Spec.FieldDefs Spec.Matrix Spec.Work Spec.Workspace Spec.Deposits Spec.Mass Spec.Images.
From Verif Require Import Proof.WorkP Proof.DepositP Proof.AddP Proof.MassP Proof.RenderP Proof.ImageP Proof.SliceP.
Import ListNotations.
Open Scope R_scope.
Local Notation idR := (fun x : R => x).
Local Notation interpolateR := (interpolate (D := R) (F := R) (ND := RNum) (NF := RNum)).
Local Notation worker_runR := (worker_run (D := R) (F := R) (ND := RNum) (NF := RNum) idR).

(** C64: the lists [work id] of the workers together hold every cube of the
    lattice exactly once, and worker [id] handles the cubes of its list, for
    each all six tetrahedra, and nothing else. *)
Theorem C64_each_cube_once : forall {D F : Type} (ND : Num D) (NF : Num F) (up : F -> D) (mc : mcarlo F) reqVel countWidth workers,
  (0 < mc_skip mc <= mc_seg mc)%Z -> (1 <= workers)%Z ->
  let n := (mc_seg mc / mc_skip mc)%Z in
  exists work : Z -> list cell,
    Permutation (flat_map work (zseq workers)) (base_cells n (mc_skip mc)) /\
    (forall id b xs vs, (0 <= id < workers)%Z ->
      worker_run up mc reqVel countWidth workers id b xs vs =
      bind (each (work id)
        (fun c s => for_ 0 6 (fun dir s =>
          mc_tetra up mc reqVel xs vs (scaled_val mc reqVel (pt_val reqVel (mc_cells mc) countWidth))
            (lattice_index (mc_seg mc + 1) c) dir s) s)
        (MS b 0%Z tetra_zero tetra_zero)) (fun s => Ok (ms_buf s))) /\
    (mc_seg mc mod mc_skip mc = 0 -> forall c, in_box c (0, 0, 0) (mc_seg mc, mc_seg mc, mc_seg mc) ->
      exists! b, In b (base_cells n (mc_skip mc)) /\ inside_cube (mc_skip mc) b c)%Z.
Proof. exact (fun D F ND NF => @split_thm D F ND NF). Qed.
Print Assumptions C64_each_cube_once.

Example C64_example : (0 < 2 <= 6)%Z /\ List.length (base_cells (6 / 2) 2) = 27%nat /\ In (4, 2, 0)%Z (base_cells (6 / 2) 2).
Proof. split; [lia|]. split; [reflexivity|]. vm_compute. tauto. Qed.

(** C65: in every execution the final grid is the initial one plus the buffers
    of all workers; no reachable state is stuck; no execution is infinite. *)
Theorem C65_schedules : forall w n (prog : nat -> list (contents R -> contents R)) (b0 : nat -> contents R) g0,
  let good b := is_scalar b = is_scalar g0 /\ sized b (volume (image_width w (bufCb w))) in
  let D := image_width w (domCb w) in
  let add := overlap_add (ND := RNum) w in
  let result i := fold_left (fun b u => u b) (prog i) (b0 i) in
  mergeable w -> (1 <= n)%nat -> sized g0 (volume D) ->
  (forall i, good (b0 i)) -> (forall i u b, In u (prog i) -> good b -> good (u b)) ->
  (forall s, preach _ _ add n prog b0 g0 s -> pfinal _ _ n s ->
     sized (grd s) (volume D) /\
     forall q c, in_grid D c -> comp q (grd s) (cell_index D c) =
       comp q g0 (cell_index D c) + sum 0 (Z.of_nat n) (fun i => contribution w q (result (Z.to_nat i)) c)) /\
  (forall s, preach _ _ add n prog b0 g0 s -> ~ pfinal _ _ n s -> exists s', pstep _ _ add n prog s s') /\
  (forall ex, ex O = pinit _ _ b0 g0 -> ~ (forall k, pstep _ _ add n prog (ex k) (ex (Datatypes.S k)))).
Proof. exact schedule_thm. Qed.
Print Assumptions C65_schedules.

Example C65_example : let w := Overlap Segment3D (CB (V3 0 0 0)%Z (V3 1 1 1)%Z) (CB (V3 0 0 0)%Z (V3 2 1 1)%Z) 4 0 in
  mergeable w /\ sized (Scalar [0; 0]) (volume (image_width w (domCb w))) /\
  (let u (b : contents R) := match b with Scalar l => Scalar (map (Rplus 1) l) | b => b end in
   forall b, is_scalar b = true /\ sized b 1 -> is_scalar (u b) = true /\ sized (u b) 1).
Proof.
  cbn. unfold fits_axis. cbn. split; [lia|]. split; [reflexivity|].
  intros [l|v c]; cbn; [|intros [H _]; discriminate]. unfold zlen. rewrite map_length. auto.
Qed.

(** C66: for points a buffer can place (away from non-positive integer
    coordinates in periodic directions, see C68) every cell gets the amounts of
    the points in it and the total changes by the amounts of all points that land. *)
Theorem C66_deposit : forall w b xs v bw, valid_overlap w -> sized b (buffer_size w) -> fits b bw (zlen xs) ->
  Forall (placeable w) xs ->
  exists b', interpolateR w b xs v bw 0 (zlen xs) 1 = Ok b' /\ sized b' (buffer_size w) /\ is_scalar b' = is_scalar b /\
    (forall q j, (0 <= j < buffer_size w)%Z -> comp q b' j = comp q b j +
      sum 0 (zlen xs) (fun i => if lands w (nth (Z.to_nat i) xs zero3) j then amount b q (point_value w v) bw i else 0)) /\
    (forall q, total q b' (buffer_size w) = total q b (buffer_size w) +
      sum 0 (zlen xs) (fun i => match landing w (nth (Z.to_nat i) xs zero3) with
                                | Some _ => amount b q (point_value w v) bw i | None => 0 end)).
Proof. exact interpolate_ok. Qed.
Print Assumptions C66_deposit.

(** C66: a whole segment. *)
Theorem C66_segment_mass : forall mc xs vs countWidth workers (b : Z -> contents R),
  segment_setup mc xs -> (1 <= workers)%Z -> (0 < countWidth)%Z ->
  (forall id, (0 <= id < workers)%Z -> sized (b id) (buffer_size (mc_sub mc)) /\ is_scalar (b id) = true) ->
  exists out : Z -> contents R,
    (forall id, (0 <= id < workers)%Z ->
       worker_runR mc false countWidth workers id (b id) xs vs = Ok (out id) /\ sized (out id) (buffer_size (mc_sub mc))) /\
    let gained := sum 0 workers (fun id => total Value (out id) (buffer_size (mc_sub mc)) - total Value (b id) (buffer_size (mc_sub mc))) in
    let n := (mc_seg mc / mc_skip mc)%Z in
    let cubes := base_cells n (mc_skip mc) in
    let unit := (IZR (mc_cells mc) / IZR countWidth) ^ 3 * IZR (mc_skip mc) ^ 3 in
    gained = IZR (meeting mc xs cubes) * unit / 6 /\
    ((forall c d, In c cubes -> (0 <= d < 6)%Z -> meets mc xs c d = true) -> gained = IZR n ^ 3 * unit).
Proof. exact mass_thm. Qed.
Print Assumptions C66_segment_mass.

Example C66_example : let w := Overlap Segment3D (CB (V3 0 0 0)%Z (V3 2 2 2)%Z) (CB (V3 0 0 0)%Z (V3 2 2 2)%Z) 8 0 in
  segment_setup (MC w 1 1 8 1 [distribute_unit (NF := RNum) [V3 (1/2) (1/4) (1/8)]] (fun _ => 0%Z))
    [V3 0 0 0; V3 1 0 0; V3 0 1 0; V3 1 1 0; V3 0 0 1; V3 1 0 1; V3 0 1 1; V3 1 1 1].
Proof.
  unfold segment_setup, valid_overlap. cbn [okd mc_sub ocells oproj bufCb domCb width v0 v1 v2 mc_skip mc_seg mc_points mc_unit mc_choose].
  split; [reflexivity|]. split; [repeat split; auto; lia|]. split; [lia|]. split; [lia|]. split; [reflexivity|]. split; [|split].
  - repeat (apply Forall_cons; [unfold placeable, in_buffer; cbn; lra|]). constructor.
  - constructor; [|constructor]. exists [V3 (1/2) (1/4) (1/8)]. split; [|auto].
    constructor; [|constructor]. unfold unit_cube. cbn. lra.
  - intros n. cbn. lia.
Qed.

(** C67: adding a buffer to a grid. *)
Theorem C67_add : forall w buf g, mergeable w -> is_scalar g = is_scalar buf ->
  sized buf (volume (image_width w (bufCb w))) -> sized g (volume (image_width w (domCb w))) ->
  exists g', overlap_add (ND := RNum) w buf g = Ok g' /\ sized g' (volume (image_width w (domCb w))) /\ is_scalar g' = is_scalar buf /\
    forall q c, in_grid (image_width w (domCb w)) c ->
      comp q g' (cell_index (image_width w (domCb w)) c) =
      comp q g (cell_index (image_width w (domCb w)) c) + contribution w q buf c.
Proof. exact add_ok. Qed.
Print Assumptions C67_add.

Example C67_example : mergeable (Overlap Segment3D (CB (V3 3 0 2)%Z (V3 2 4 1)%Z) (CB (V3 0 1 0)%Z (V3 3 1 4)%Z) 4 0) /\
  mergeable (Overlap Segment2D (CB (V3 3 0 2)%Z (V3 2 4 1)%Z) (CB (V3 0 1 0)%Z (V3 3 1 4)%Z) 4 1) /\
  same_cell (Overlap Segment3D (CB (V3 3 0 2)%Z (V3 2 4 1)%Z) (CB (V3 0 1 0)%Z (V3 3 1 4)%Z) 4 0) 0 1 0 = true.
Proof. cbn. unfold fits_axis. cbn. repeat split; auto; lia. Qed.

(** C68: false of the code at every integer below 1 (and in float32 just above -1). *)
Theorem C68_floor_refuted : forall k, (k <= 0)%Z -> int_floor (NF := RNum) (IZR k) = (k - 1)%Z.
Proof. exact int_floor_int. Qed.
Print Assumptions C68_floor_refuted.

Theorem C68_floor_float32_refuted :
  let x : f32 := (nofZ (- (2 ^ 24 - 1)) / nofZ (2 ^ 24))%num in
  nfloor x = (-1)%Z /\ int_floor x = (-2)%Z.
Proof. exact int_floor_float32. Qed.
Print Assumptions C68_floor_float32_refuted.

(** What holds: positive coordinates and coordinates that are not integers. *)
Theorem C68_floor_partial : forall x, regular x -> int_floor (NF := RNum) x = Zfloor x.
Proof. exact int_floor_regular. Qed.
Print Assumptions C68_floor_partial.

Example C68_example : regular (-1 / 2) /\ regular 3.
Proof.
  split; [|left; lra]. right. rewrite (Zfloor_imp (-1)) by (simpl; lra). simpl. lra.
Qed.

(** C69: after any history a buffer is prepared without panic, with the length
    asked for and zeros only. *)
Theorem C69_clean : forall {D : Type} {ND : Num D} q len (b : buffer D) n, history q len b -> (0 <= n <= len)%Z ->
  exists b', prepare b n = Ok b' /\ clean b' n /\ buf_length b' = n.
Proof. exact @workspace_clean. Qed.
Print Assumptions C69_clean.

(** C69: the length asked for is at most the length allocated. *)
Theorem C69_capacity : forall {B H} (boxes : list B) (hds : list H) (meets : B -> H -> bool) (over : B -> H -> overlap) b h,
  In b boxes -> In h hds -> meets b h = true -> (buffer_size (over b h) <= max_buf_size boxes hds meets over)%Z.
Proof. exact @capacity_enough. Qed.
Print Assumptions C69_capacity.

(** C69: s[low:high] shows the elements low, ..., high - 1 and keeps what is
    behind them. *)
Theorem C69_slice : forall {A} (s : gslice A) low high, (0 <= low <= high)%Z -> (high <= zlen (back s))%Z ->
  exists t, reslice s low high = Ok t /\ zlen (visible t) = (high - low)%Z /\
    (forall i, (0 <= i < high - low)%Z -> nth_error (visible t) (Z.to_nat i) = nth_error (back s) (Z.to_nat (low + i))) /\
    (forall i, (0 <= i)%Z -> nth_error (back t) (Z.to_nat i) = nth_error (back s) (Z.to_nat (low + i))).
Proof. exact @slice_shows. Qed.
Print Assumptions C69_slice.

Example C69_example : exists b : buffer R, history Density 2 b /\ ~ clean b 1.
Proof.
  exists (SBuf Density (GS [5; 0] 1)). split.
  - eapply h_value with (s := GS [0; 0] 1) (i := 0%Z) (v := 5); [|reflexivity].
    eapply h_prepare with (n := 1%Z); [apply h_new; reflexivity|]. reflexivity.
  - intros [_ H]. cbn in H. injection H as H. lra.
Qed.

(** C70: false of the code: Subsample(3) is accepted, and the next call, with a
    valid length, is the one that fails. *)
Theorem C70_subsample_refuted :
  subsample manager_skip0 3 = Ok 3%Z /\ subsample 3 4 = Fatal /\ ~ power_of_two 3 /\ power_of_two 4.
Proof. exact subsample_bad. Qed.
Print Assumptions C70_subsample_refuted.

(** What holds: isPowTwo decides powers of two; Subsample accepts anything
    exactly when the previous length was a power of two. *)
Theorem C70_is_pow_two_partial : forall x, exists b, is_pow_two x = Ok b /\ (b = true <-> power_of_two x).
Proof. exact is_pow_two_ok. Qed.
Print Assumptions C70_is_pow_two_partial.

Theorem C70_subsample_partial : forall skip len,
  (power_of_two skip -> subsample skip len = Ok len) /\ (~ power_of_two skip -> subsample skip len = Fatal).
Proof. exact subsample_ok. Qed.
Print Assumptions C70_subsample_partial.

Example C70_example : is_pow_two 64 = Ok true /\ is_pow_two 12 = Ok false /\ is_pow_two (-4) = Ok false.
Proof. repeat split; reflexivity. Qed.

(** C71: false of the code for the quantity Density. *)
Theorem C71_density_refuted : quantity_string Density = Panic.
Proof. exact eq_refl. Qed.
Print Assumptions C71_density_refuted.

(** What holds for the others, and for all strings. *)
Theorem C71_round_trip_partial : forall q, (0 < q < EndQuantity)%Z ->
  exists s, quantity_string q = Ok s /\ quantity_from_string s = (q, true).
Proof. exact quantity_round. Qed.
Print Assumptions C71_round_trip_partial.

Theorem C71_unknown_partial : forall s, snd (quantity_from_string s) = true <->
  In s ["Density"; "DensityGradient"; "Velocity"; "VelocityDivergence"; "VelocityCurl"]%string.
Proof. exact from_string_unknown. Qed.
Print Assumptions C71_unknown_partial.

(** Which quantities need velocities. *)
Theorem C71_velocities_partial : forall q,
  (In q [Velocity; VelocityDivergence; VelocityCurl] -> requires_velocity q = Ok true) /\
  (In q [Density; DensityGradient] -> requires_velocity q = Ok false) /\
  (~ In q [Density; DensityGradient; Velocity; VelocityDivergence; VelocityCurl] -> requires_velocity q = Panic).
Proof. exact velocities. Qed.
Print Assumptions C71_velocities_partial.

Example C71_example : quantity_string Velocity = Ok "Velocity"%string /\ quantity_from_string "velocity" = (0%Z, false).
Proof. split; reflexivity. Qed.

(** C72: false of the code: short velocity buffers panic, and the divergence
    of the flow (0, y, 0) comes out as 0 rather than 1. *)
Theorem C72_velocity_refuted : forall {D F} {ND : Num D} {NF : Num F} (cvt : D -> F) (vecs : list (vec3 D)) num,
  (0 < zlen vecs < 30)%Z -> finalized_velocity cvt vecs num = Panic.
Proof. exact @velocity_short. Qed.
Print Assumptions C72_velocity_refuted.

Theorem C72_divergence_refuted :
  (r <- finalized_divergence to_f32 cube5 y_flow (repeat 1%Z 125) ;; a <- get r 62 ;; Ok (neqb a (nofZ 0), neqb a (nofZ 1)))%res
  = Ok (true, false).
Proof. exact divergence_bad. Qed.
Print Assumptions C72_divergence_refuted.

(** What holds: the averages for empty and long buffers, the averages whose
    curl is taken, and what the divergence is taken of. *)
Theorem C72_velocity_partial : forall vecs num, zlen num = zlen vecs -> (zlen vecs = 0 \/ 30 <= zlen vecs)%Z ->
  exists out, finalized_velocity (D := R) (F := R) (NF := RNum) idR vecs num = Ok out /\ averages_of vecs num out.
Proof. exact velocity_averages. Qed.
Print Assumptions C72_velocity_partial.

Theorem C72_curl_partial : forall vecs num, zlen num = zlen vecs ->
  exists out, curl_fields (D := R) (F := R) (NF := RNum) idR vecs num = Ok out /\ averages_of vecs num out.
Proof. exact curl_averages. Qed.
Print Assumptions C72_curl_partial.

Theorem C72_divergence_partial : forall vecs num, zlen num = zlen vecs ->
  exists out, divergence_fields (D := R) (F := R) (NF := RNum) idR vecs num = Ok out /\
    averages_of (map (fun v => V3 (v0 v) (v0 v) (v2 v)) vecs) num out.
Proof. exact divergence_averages. Qed.
Print Assumptions C72_divergence_partial.

Example C72_example : zlen (repeat 2%Z 30) = zlen (repeat (V3 1 2 3) 30) /\ average 3 2 = 3 / 2 /\ average 0 0 = 0.
Proof. repeat split; reflexivity. Qed.

(** C104: false of the code: a box as wide as the simulation has one cell too
    many along each axis, whatever its resolution. *)
Theorem C104_box_cells_refuted : forall bw cells, 0 < bw -> (0 < cells)%Z ->
  box_cells1 (ND := RNum) (bw / IZR cells) 0 bw = (0, cells + 1)%Z.
Proof. exact box_cells_whole. Qed.
Print Assumptions C104_box_cells_refuted.

Theorem C104_box_cells_float_refuted :
  box_cells1 (ND := F64Num) (nofZ 100 / nofZ 10)%num (nofZ 0) (nofZ 100) = (0, 11)%Z.
Proof. exact box_cells_bad. Qed.
Print Assumptions C104_box_cells_float_refuted.

(** What holds: the cells cover the closed box, the first and the last one meet
    it, and they fit into the grid if the box is at least one cell narrower. *)
Theorem C104_box_cells_partial : forall cw o w, 0 < cw -> 0 <= w ->
  let '(first, n) := box_cells1 (ND := RNum) cw o w in
  (1 <= n)%Z /\
  (forall x, o <= x <= o + w -> exists k, (first <= k < first + n)%Z /\ IZR k * cw <= x < IZR (k + 1) * cw) /\
  (IZR first * cw <= o < IZR (first + 1) * cw) /\
  (IZR (first + n - 1) * cw <= o + w < IZR (first + n) * cw) /\
  (forall cells, w <= IZR (cells - 1) * cw -> (n <= cells)%Z).
Proof. exact box_cells_ok. Qed.
Print Assumptions C104_box_cells_partial.

Example C104_example : box_cells1 (ND := F64Num) (nofZ 10) (nofZ 25) (nofZ 30) = (2, 4)%Z /\ 30 <= IZR (10 - 1) * 10.
Proof. split; [vm_compute; reflexivity|simpl; lra]. Qed.

(** C105: false of the code: one point with velocity 4 in a projection of
    depth 2 gives a pixel of 2. *)
Theorem C105_projection_refuted :
  (b <- interpolate (D := f64) (F := f32) proj_bad (Vector (repeat (V3 (nofZ 0) (nofZ 0) (nofZ 0)) 36) (repeat 0%Z 36))
     [V3 half32 half32 half32] (nofZ 1) (WVector [four]) 0 1 1 ;;
   match b with
   | Vector vecs num => out <- finalized_velocity to_f32 vecs num ;; a <- get (v0 out) 0 ;; Ok (neqb a (nofZ 2), neqb a (nofZ 4))
   | _ => Panic
   end)%res = Ok (true, false).
Proof. exact velocity_image_bad. Qed.
Print Assumptions C105_projection_refuted.

(** What holds: pixels are the mean velocity divided by the depth, which is 1
    for three dimensional images. *)
Theorem C105_velocity_image_partial : forall w num0 vec0 xs vs, valid_overlap w -> (30 <= buffer_size w)%Z ->
  vec0 = repeat zero3 (Z.to_nat (buffer_size w)) -> num0 = repeat 0%Z (Z.to_nat (buffer_size w)) ->
  Forall (placeable w) xs -> zlen vs = zlen xs -> depth w <> 0%Z ->
  exists vecs num out,
    interpolateR w (Vector vec0 num0) xs 1 (WVector vs) 0 (zlen xs) 1 = Ok (Vector vecs num) /\
    finalized_velocity (D := R) (F := R) (NF := RNum) idR vecs num = Ok out /\
    forall j, (0 <= j < buffer_size w)%Z ->
      let count := sum 0 (zlen xs) (fun i => if lands w (nth (Z.to_nat i) xs zero3) j then 1 else 0) in
      let mean f := sum 0 (zlen xs) (fun i => if lands w (nth (Z.to_nat i) xs zero3) j then f (nth (Z.to_nat i) vs zero3) else 0) / count in
      let pixel f := if Req_EM_T count 0 then 0 else mean f / IZR (depth w) in
      nth (Z.to_nat j) (v0 out) 0 = pixel v0 /\ nth (Z.to_nat j) (v1 out) 0 = pixel v1 /\ nth (Z.to_nat j) (v2 out) 0 = pixel v2.
Proof. exact velocity_image. Qed.
Print Assumptions C105_velocity_image_partial.

Example C105_example : let w := Overlap Segment3D (CB (V3 0 0 0)%Z (V3 4 4 2)%Z) (CB (V3 0 0 0)%Z (V3 4 4 2)%Z) 16 0 in
  valid_overlap w /\ (30 <= buffer_size w)%Z /\ depth w = 1%Z /\ placeable w (V3 (1/2) (3/2) 1).
Proof. unfold valid_overlap, placeable, in_buffer. cbn. repeat split; auto; try lia; try lra. Qed.
