(** Model of the validators in /repo/render/io/config.go.  Parsing the files
    (gcfg) and the texts of error messages are not modelled: a check returns
    whether it accepts. *)
From Coq Require Import ZArith List Bool String Ascii.
From Verif Require Import Base.Res Base.Num Model.Geom Model.Density.
Import ListNotations.
Open Scope Z_scope.
Open Scope res_scope.

(** ** strings.ToUpper, strings.ToLower and strings.Trim(s, " ") on bytes below
    128; other runes are not modelled. *)
Definition up_ascii (c : ascii) : ascii :=
  let n := nat_of_ascii c in if (97 <=? n)%nat && (n <=? 122)%nat then ascii_of_nat (n - 32) else c.
Definition low_ascii (c : ascii) : ascii :=
  let n := nat_of_ascii c in if (65 <=? n)%nat && (n <=? 90)%nat then ascii_of_nat (n + 32) else c.
Fixpoint map_string (f : ascii -> ascii) (s : string) : string :=
  match s with EmptyString => EmptyString | String c s => String (f c) (map_string f s) end.
Definition to_upper := map_string up_ascii.
Definition to_lower := map_string low_ascii.
Fixpoint trim_left (s : string) : string :=
  match s with String c s' => if Ascii.eqb c " " then trim_left s' else s | EmptyString => s end.
(** Drop the spaces at the end. *)
Fixpoint trim_right (s : string) : string :=
  match s with
  | EmptyString => EmptyString
  | String c s' => match trim_right s' with EmptyString => if Ascii.eqb c " " then EmptyString else String c EmptyString
                   | t => String c t end
  end.
Definition trim_space (s : string) : string := trim_right (trim_left s).

(** ** Boxes and balls *)
Section Numeric.
Context {D : Type} {ND : Num D}.

(** config.go:342-349 and 417-427 (Name is not modelled). *)
Record ball_config := BallC { bl_x : D; bl_y : D; bl_z : D; bl_radius : D; bl_multiplier : D }.
Record box_config := BoxC { bx_o : vec3 D; bx_w : vec3 D; bx_axis : string }.

(** The range tests of config.go:358-373 and 444-459. *)
Definition outside (x totalWidth : D) : bool := ((x >=? totalWidth) || (x <? #0))%num.

(** config.go:351-386: [None] stands for an error, otherwise the ball after
    initialisation. *)
Definition ball_check_init (b : ball_config) (totalWidth : D) : option ball_config :=
  if (bl_radius b =? #0)%num then None
  else if outside (bl_x b) totalWidth then None
  else if outside (bl_y b) totalWidth then None
  else if outside (bl_z b) totalWidth then None
  else if (bl_multiplier b =? #0)%num then Some (BallC (bl_x b) (bl_y b) (bl_z b) (bl_radius b) (#1)%num)
  else if (bl_multiplier b <? #0)%num then None
  else Some b.

(** config.go:394-410, one coordinate *)
Definition ball_origin (x rad totalWidth : D) : D :=
  (if x >? rad then x - rad else x - rad + totalWidth)%num.
(** config.go:388-415 *)
Definition ball_box (b : ball_config) (totalWidth : D) : box_config :=
  let rad := (bl_radius b * bl_multiplier b)%num in
  let w := (#2 * rad)%num in
  BoxC (V3 (ball_origin (bl_x b) rad totalWidth) (ball_origin (bl_y b) rad totalWidth) (ball_origin (bl_z b) rad totalWidth))
       (V3 w w w) "".

(** config.go:429-477 *)
Definition box_check_init (b : box_config) (totalWidth : D) : option box_config :=
  if (v0 (bx_w b) <=? #0)%num then None
  else if (v1 (bx_w b) <=? #0)%num then None
  else if (v2 (bx_w b) <=? #0)%num then None
  else if outside (v0 (bx_o b)) totalWidth then None
  else if outside (v1 (bx_o b)) totalWidth then None
  else if outside (v2 (bx_o b)) totalWidth then None
  else
    let axis := trim_space (to_upper (bx_axis b)) in
    if negb (String.eqb axis "") && negb (String.eqb axis "X") && negb (String.eqb axis "Y") && negb (String.eqb axis "Z")
    then None else Some (BoxC (bx_o b) (bx_w b) axis).
(** config.go:479 *)
Definition is_projection (b : box_config) : bool := negb (String.eqb (bx_axis b) "").

(** config.go:486-508 after the files are read.  Iteration over a Go map takes
    an arbitrary order; the lists are in that order. *)
Definition read_bounds (balls : list ball_config) (boxes : list box_config) (totalWidth : D) : option (list box_config) :=
  let step {A} (check : A -> option box_config) (acc : option (list box_config)) (a : A) :=
    match acc with
    | None => None
    | Some l => match check a with None => None | Some b => Some (l ++ [b])%list end
    end in
  let acc := fold_left (step (fun b => match ball_check_init b totalWidth with None => None | Some b => Some (ball_box b totalWidth) end)) balls (Some []) in
  fold_left (step (fun b => box_check_init b totalWidth)) boxes acc.

(** config.go:556-574 *)
Definition valid_hist_min (scale : string) (histMin histMax : D) : bool :=
  ((String.eqb scale "Linear" || (String.eqb scale "Log" && (histMin >? #0))) && (histMin <? histMax))%num.
Definition valid_hist_max (scale : string) (histMin histMax : D) : bool :=
  ((String.eqb scale "Linear" || (String.eqb scale "Log" && (histMax >? #0))) && (histMin <? histMax))%num.
End Numeric.
Arguments ball_config D : clear implicits.
Arguments box_config D : clear implicits.

(** ** Integers and names *)
(** config.go:576-585 (TetraHistConfig).  Go's % and / truncate. *)
Fixpoint subsample_loop (fuel : nat) (s : Z) : res bool :=
  match fuel with
  | O => NoFuel
  | Datatypes.S f =>
      if s =? 1 then Ok true
      else if Z.rem s 2 =? 1 then Ok false
      else subsample_loop f (Z.quot s 2)
  end.
Definition hist_valid_subsample (s : Z) : res bool :=
  if s <=? 0 then Ok false else subsample_loop (Datatypes.S (Z.to_nat (Z.log2 s))) s.
(** config.go:324-326 (RenderConfig) *)
Definition render_valid_subsample (s : Z) : bool := s >? 0.

(** config.go:307-315 (RenderConfig): the value returned inside the loop, or
    [None] while it goes on. *)
Definition render_valid_quantity (name : string) : res bool :=
  r <- for_ 0 EndQuantity (fun q r =>
    match r with
    | Some _ => Ok r
    | None =>
        s <- quantity_string q ;;
        Ok (if String.eqb (to_lower s) (to_lower name) then Some true else None)
    end) None ;;
  Ok (match r with Some b => b | None => false end).
(** config.go:548-554 (TetraHistConfig) *)
Definition hist_valid_quantity (name : string) : bool := String.eqb name "Density".
