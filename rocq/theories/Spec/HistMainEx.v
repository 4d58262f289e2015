(** Small runs of tetraHistMain used as witnesses and examples. *)
From Coq Require Import String.
From Coq Require Import ZArith List Reals.
From Verif Require Import Base.Res Base.Num Base.IEEE Base.Convert Model.Geom Model.Config Model.Hist Model.RenderMain Model.HistMain Spec.HistDefs.
Import ListNotations.
Open Scope Z_scope.

Section Ex.
Context {D F : Type} {ND : Num D} {NF : Num F}.
Definition all_at {A} {NA : Num A} (x : Z) : vec3 A := (V3 #x #x #x)%num.
(** A sheet of a simulation of width 10 with [n] cubes along each axis, in the
    region from [o] to [o + w], with all particles at the point (x, x, x). *)
Definition point_sheet (n o w x : Z) : hfile D F :=
  let count := (n + 1) * (n + 1) * (n + 1) in
  HF count (HS (all_at o) (all_at w) (#10)%num (n + 1) n) (repeat (all_at x) (Z.to_nat count)).
(** A grid with a single pixel, of value 7. *)
Definition one_pixel : hist_grid D * list D := (HG (all_at 0) (all_at 10) (V3 1 1 1) (#10)%num (#10)%num, [(#7)%num]).
(** Five bins from 0 to 10. *)
Definition five_bins (quantity : string) (bins particles : Z) : hist_config D :=
  HC "in" "out" quantity (#0)%num (#10)%num bins "Linear" particles 1 "" "".
Definition cube_at (o w : Z) : box_config D := BoxC (all_at o) (all_at w) "".
End Ex.

(** One worker, floating point numbers. *)
Definition hist_job (sheets : list (string * hfile f64 f32)) (con : hist_config f64) (boxes : list (string * box_config f64)) : res (list (string * list (f64 * Z))) :=
  hist_main to_f64 to_f32 (fun x => x) (fun x => x)
    (fun name => match find (fun s => String.eqb (fst s) name) sheets with Some s => Some (snd s) | None => None end)
    1 (fun _ _ => V3 (f32lit 1 (-2)) (f32lit 1 (-2)) (f32lit 1 (-2))) (fun _ _ _ _ => 0) (fun _ _ => [0])
    (map fst sheets) (Some one_pixel) con [Some (BF [] boxes)].
Definition counts_of (r : res (list (string * list (f64 * Z)))) : res (list (string * list Z)) :=
  match r with Ok l => Ok (map (fun t => (fst t, map snd (snd t))) l) | Panic => Panic | Fatal => Fatal | NoFuel => NoFuel end.

(** A run on real numbers. *)
Definition real_bins : hist_config R := five_bins "Density"%string 5 1.
Definition real_bounds : list (option (bounds_file R)) := [Some (BF [] [("b"%string, cube_at 2 4)])].
Definition real_parts : list (list (string * box_config R)) := [[("b"%string, cube_at 2 4)]].
Definition half_point : vec3 R := (V3 (1 / 2) (1 / 2) (1 / 2))%R.
