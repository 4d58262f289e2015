(** The files that writeGrids in /repo/render/main/main.go leaves in a directory,
    as the manager of /repo/render/render.go reads them.  [D] is float64, [F] is
    float32; the bytes in between are in SheetIO.v. *)
From Coq Require Import ZArith List Bool String.
From Verif Require Import Base.Res Base.Num Model.Geom Model.Main Model.Box Model.SheetIO Model.Manager.
Import ListNotations.
Open Scope Z_scope.
Open Scope res_scope.

Section Pipeline.
Context {D F : Type} {ND : Num D} {NF : Num F} (up : F -> D) (down : D -> F).

(** main.go:372-384, 392 and 508-516: the fields of the header that the manager uses,
    and the two slices WriteSheet is given. *)
Definition sheet_of (countWidth cells : Z) (total : D) (sg : segment F) : sheet_file D F :=
  let segmentWidth := Z.quot countWidth cells in
  let gridWidth := segmentWidth + 1 in
  SF (Sheet total segmentWidth countWidth (gridWidth * gridWidth * gridWidth) (sg_origin sg) (sg_width sg)) (sg_x sg) (sg_v sg).

(** io.go:352-388: WriteSheet truncates a file that exists, so that of several
    segments with one name the last is found. *)
Definition on_disk (countWidth cells : Z) (total : D) (out : list (string * segment F)) (file : string) : option (sheet_file D F) :=
  match find (fun p => String.eqb (fst p) file) (rev out) with
  | Some (_, sg) => Some (sheet_of countWidth cells total sg)
  | None => None
  end.

(** Convert (main.go:275), then render (main.go:560-564) the files of the
    directory, [files] being its listing. *)
Definition convert_and_render (zero : vec3 F) (countWidth cells : Z) (total : D) (xs vs : list (vec3 F))
    (numCores : Z) rnd choose order (files : list string) (boxes : list (rbox D)) (q skip : Z) : res (list (rbox D)) :=
  out <- write_grids zero countWidth cells (down total) xs vs ;;
  render_job up down (on_disk countWidth cells total out) numCores rnd choose order files boxes q skip.
End Pipeline.
