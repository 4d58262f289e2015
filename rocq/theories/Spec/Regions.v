(** Regions of a periodic box, and names, independently of the code. *)
From Coq Require Import ZArith List Bool String Ascii Reals.
From Verif Require Import Model.Geom Model.Config.
Import ListNotations.
Open Scope R_scope.

Definition all_coords (P : R -> Prop) (v : vec3 R) : Prop := P (v0 v) /\ P (v1 v) /\ P (v2 v).
Definition inside_period (L x : R) : Prop := 0 <= x < L.

(** [o] is the lower end of the interval of half width [rad] around [x] in a
    periodic line of length [L]. *)
Definition lower_end (L x rad o : R) : Prop := (exists k : Z, o = x - rad + IZR k * L) /\ inside_period L o.

(** The smallest box around a ball. *)
Definition encloses_ball (L : R) (b : ball_config R) (box : box_config R) : Prop :=
  let rad := bl_radius b * bl_multiplier b in
  lower_end L (bl_x b) rad (v0 (bx_o box)) /\ lower_end L (bl_y b) rad (v1 (bx_o box)) /\ lower_end L (bl_z b) rad (v2 (bx_o box)) /\
  all_coords (fun w => w = 2 * rad) (bx_w box).

Definition box_in_period (L : R) (box : box_config R) : Prop :=
  all_coords (fun w => 0 < w) (bx_w box) /\ all_coords (inside_period L) (bx_o box).

(** [s] is [core] with spaces around it. *)
Definition padded (core s : string) : Prop :=
  exists i j, s = (string_of_list_ascii (repeat " "%char i) ++ core ++ string_of_list_ascii (repeat " "%char j))%string.
(** How an axis may be written, and what it means. *)
Definition axis_name (core axis : string) : Prop :=
  In (core, axis) [("", ""); ("x", "X"); ("X", "X"); ("y", "Y"); ("Y", "Y"); ("z", "Z"); ("Z", "Z")]%string.
