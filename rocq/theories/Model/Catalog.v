(** Model of /repo/render/halo/radius.go and io.go.  Reading text tables
    (github.com/phil-mansfield/table) is not modelled: the columns are arguments.
    Opening, creating and closing files succeed. *)
From Coq Require Import ZArith String List Bool.
From Verif Require Import Base.Res Base.Num Base.Bytes Model.SheetIO Model.Config Model.Cosmo.
Import ListNotations.
Open Scope Z_scope.
Open Scope res_scope.

(** ** radius.go *)

(** radius.go:11-18: the type is an int, so other values exist. *)
Definition RVirial : Z := 0.
Definition R200c : Z := 1.
Definition R200m : Z := 2.
Definition R500c : Z := 3.
Definition R2500c : Z := 4.

Definition one_of (s : string) (l : list string) : bool := existsb (String.eqb s) l.

(** radius.go:20-35, strings of bytes below 128 *)
Definition radius_from_string (s : string) : Z * bool :=
  let s := to_lower s in
  if one_of s ["200m"; "r200m"]%string then (R200m, true)
  else if one_of s ["vir"; "rvir"]%string then (RVirial, true)
  else if one_of s ["200c"; "r200c"]%string then (R200c, true)
  else if one_of s ["500c"; "r500c"]%string then (R500c, true)
  else if one_of s ["2500c"; "r2500c"]%string then (R2500c, true)
  else (RVirial, false).

(** radius.go:37-51 *)
Definition radius_string (r : Z) : res string :=
  if r =? R200m then Ok "R200m"%string
  else if r =? R200c then Ok "R200c"%string
  else if r =? R500c then Ok "R500c"%string
  else if r =? R2500c then Ok "R2500c"%string
  else if r =? RVirial then Ok "RVir"%string
  else Panic.

(** radius.go:104-118 *)
Definition rockstar_column (r : Z) : res Z :=
  if r =? RVirial then Ok 11 else if r =? R200c then Ok 37 else if r =? R200m then Ok 36
  else if r =? R500c then Ok 38 else if r =? R2500c then Ok 39 else Panic.

(** radius.go:120-128 *)
Definition rockstar_mass (r : Z) : res bool :=
  if r =? RVirial then Ok false
  else if (r =? R200c) || (r =? R200m) || (r =? R500c) || (r =? R2500c) then Ok true else Panic.

Section Mass.
Context {F : Type} {NF : Num F}.
Variables (fsqrt : F -> F) (fpow : F -> F -> F) (k : cosmo_consts F).

(** render/io/io.go:69-74 *)
Record cosmo_header := CH { ch_z : F; ch_omegaM : F; ch_omegaL : F; ch_h100 : F }.

(** radius.go:54-68 and 79-93 *)
Definition overdensity (r : Z) (c : cosmo_header) : F :=
  (let h0 := ch_h100 c * #100 in
   let crit := rho_critical fsqrt fpow k h0 (ch_omegaM c) (ch_omegaL c) (ch_z c) in
   if (r =? RVirial)%Z then cc_vir k * crit
   else if (r =? R200c)%Z then #200 * crit
   else if (r =? R200m)%Z then #200 * rho_average fsqrt fpow k h0 (ch_omegaM c) (ch_omegaL c) (ch_z c)
   else if (r =? R500c)%Z then #500 * crit
   else if (r =? R2500c)%Z then #2500 * crit
   else #0)%num.
(** radius.go:71 and 96 *)
Definition sphere_factor (r : Z) (c : cosmo_header) : F := (overdensity r c * #4 * cc_pi k / #3)%num.
(** radius.go:70 and 95 *)
Definition scale_factor (c : cosmo_header) : F := (#1 / (#1 + ch_z c))%num.

(** radius.go:53-76 *)
Definition radius_of (r : Z) (c : cosmo_header) (ms out : list F) : res (list F) :=
  for_ 0 (zlen ms) (fun i out => m <- get ms i ;;
    set out i (fpow (m / sphere_factor r c) (#1 / #3) / scale_factor c)%num) out.

(** radius.go:78-101 *)
Definition mass_of (r : Z) (c : cosmo_header) (rs out : list F) : res (list F) :=
  for_ 0 (zlen rs) (fun i out => x <- get rs i ;;
    let x := (x * scale_factor c)%num in
    set out i (sphere_factor r c * (x * x * x))%num) out.
End Mass.
Arguments cosmo_header F : clear implicits.

(** ** io.go *)

(** io.go:61-131: the values that are named in the code. *)
Definition vID : Z := 1.
Definition vMVir : Z := 10.
Definition vRVir : Z := 11.
Definition vRs : Z := 12.
Definition vRsKylpin : Z := 34.
Definition vM200b : Z := 36.
Definition vM200c : Z := 37.
Definition vM500c : Z := 38.
Definition vM2500c : Z := 39.
Definition valNum : Z := 62.
Definition vRadVir : Z := 63.
Definition vRad200b : Z := 64.
Definition vRad200c : Z := 65.
Definition vRad500c : Z := 66.
Definition vRad2500c : Z := 67.

(** sort.Sort: a function of the order and the elements.  The package only
    promises that the result is a sorted arrangement; see Spec/Catalogs.v. *)
Definition sorter : Type := forall A : Type, (A -> A -> bool) -> list A -> list A.

Definition ints (n : nat) : list Z := map Z.of_nat (seq 0 n).

(** io.go:165-176: values and indices are swapped together. *)
Definition idx_sort {A} (srt : sorter) (less : A -> A -> bool) (xs : list A) : list Z :=
  map snd (srt (A * Z)%type (fun p q => less (fst p) (fst q)) (combine xs (ints (List.length xs)))).

(** io.go:145-148 and 201-205: what binary.Write writes for doubles (bit patterns). *)
Definition doubles (col : list Z) : list Z := encode Little (map (pair 8%nat) col).

(** io.go:133-151 after reading the table *)
Definition rockstar_convert (cols : list (list Z)) : res (list Z) :=
  c0 <- get cols 0 ;;
  Ok (put Little 8 (zlen c0) ++ flat_map doubles cols).

(** io.go:184-195: the rows that are kept, and the columns of these rows. *)
Definition top_rows (srt : sorter) (less : Z -> Z -> bool) (cols : list (list Z)) (n : Z) : res (list Z) :=
  c0 <- get cols 0 ;;
  let n := if n >? zlen c0 then zlen c0 else n in
  ms <- get cols vM200b ;;
  let idxs := idx_sort srt less ms in
  slice idxs (zlen c0 - n) (zlen idxs).
Definition take_rows (idxs : list Z) (col : list Z) : res (list Z) :=
  for_ 0 (zlen idxs) (fun i out => idx <- get idxs i ;; v <- get col idx ;; set out i v) (repeat 0 (List.length idxs)).

(** io.go:178-208 after reading the table *)
Definition rockstar_convert_top_n (srt : sorter) (less : Z -> Z -> bool) (cols : list (list Z)) (n : Z) : res (list Z) :=
  c0 <- get cols 0 ;;
  idxs <- top_rows srt less cols n ;;
  outCols <- tabulate (zlen cols) (fun j => col <- get cols j ;; take_rows idxs col) ;;
  Ok (put Little 8 (if n >? zlen c0 then zlen c0 else n) ++ flat_map doubles outCols).

(** io.go:278-285: one column.  File positions are below 2^63. *)
Definition read_col (file : list Z) (n colIdx : Z) : res (outcome (list Z)) :=
  if colIdx >? valNum then Panic else
  let pos := 8 + n * 8 * colIdx in
  if pos <? 0 then Ok Err else
  match read_full file (Z.to_nat pos) (8 * Z.to_nat n) with
  | None => Ok Err
  | Some b => Ok (Good (words Little 8 (Z.to_nat n) b))
  end.
Fixpoint read_cols (file : list Z) (n : Z) (colIdxs : list Z) : res (outcome (list (list Z))) :=
  match colIdxs with
  | [] => Ok (Good [])
  | c :: rest =>
      o <- read_col file n c ;;
      match o with
      | Err => Ok Err
      | Good col => o <- read_cols file n rest ;; Ok (match o with Err => Err | Good cols => Good (col :: cols) end)
      end
  end.

(** io.go:269-288.  The buffers are allocated before anything else is read. *)
Definition binary_col_getter (file : list Z) (colIdxs : list Z) : res (outcome (list (list Z))) :=
  match read_full file 0 8 with
  | None => Ok Err
  | Some b =>
      let n := signed 64 (word Little b) in
      if (n <? 0) && negb (zlen colIdxs =? 0) then Panic
      else read_cols file n colIdxs
  end.

(** io.go:225-236 *)
Definition col_of_val (val : Z) : Z :=
  if val =? vRadVir then vMVir
  else if val =? vRad200b then vM200b
  else if val =? vRad200c then vM200c
  else if val =? vRad500c then vM500c
  else if val =? vRad2500c then vM2500c
  else val.

Section Vals.
Context {F : Type} {NF : Num F}.
Variables (fsqrt : F -> F) (fpow : F -> F -> F) (k : cosmo_consts F).

(** io.go:246-255 *)
Definition convert_col (c : cosmo_header F) (val : Z) (col : list F) : res (list F) :=
  let rad r := radius_of fsqrt fpow k r c col col in
  if val =? vRadVir then rad RVirial
  else if val =? vRad200b then rad R200m
  else if val =? vRad200c then rad R200c
  else if val =? vRad500c then rad R500c
  else if val =? vRad2500c then rad R2500c
  else if (val =? vRs) || (val =? vRVir) || (val =? vRsKylpin) then Ok (map (fun v => v / #1000)%num col)
  else Ok col.

(** io.go:222-263 with the column getter as an argument. *)
Definition read_rockstar_vals (getter : list Z -> res (outcome (list (list F)))) (c : cosmo_header F) (valFlags : list Z) :
  res (outcome (list Z * list (list F))) :=
  o <- getter (vID :: map col_of_val valFlags) ;;
  match o with
  | Err => Ok Err
  | Good vals =>
      v0 <- get vals 0 ;;
      let ids := map ntrunc v0 in
      vals <- for_ 0 (zlen valFlags) (fun i vals =>
        val <- get valFlags i ;; col <- get vals (i + 1) ;; col <- convert_col c val col ;; set vals (i + 1) col) vals ;;
      vals <- slice vals 1 (zlen vals) ;;
      Ok (Good (ids, vals))
  end.

(** io.go:12-16: one entry of each of the six slices. *)
Record hrow := HRow { hw_rid : Z; hw_x : F; hw_y : F; hw_z : F; hw_m : F; hw_r : F }.

(** io.go:31-59; [table k] is column number k of the file. *)
Definition read_rockstar (srt : sorter) (r : Z) (c : cosmo_header F) (table : Z -> list F) :
  res (list Z * list F * list F * list F * list F * list F) :=
  rCol <- rockstar_column r ;;
  let ids := table 1 in let xs := table 17 in let ys := table 18 in let zs := table 19 in let col := table rCol in
  isMass <- rockstar_mass r ;;
  '(ms, rs) <- (if isMass : bool then
                  rs <- radius_of fsqrt fpow k r c col (repeat (#0)%num (List.length col)) ;; Ok (col, rs)
                else
                  let rs := map (fun v => v / #1000)%num col in
                  ms <- mass_of fsqrt fpow k r c rs (repeat (#0)%num (List.length rs)) ;; Ok (ms, rs)) ;;
  let rids := map ntrunc ids in
  rows <- tabulate (zlen rs) (fun i =>
    a <- get rids i ;; x <- get xs i ;; y <- get ys i ;; z <- get zs i ;; m <- get ms i ;; q <- get rs i ;;
    Ok (HRow a x y z m q)) ;;
  let out := srt hrow (fun a b => (hw_r b <? hw_r a)%num) rows in
  Ok (map hw_rid out, map hw_x out, map hw_y out, map hw_z out, map hw_m out, map hw_r out).
End Vals.
Arguments hrow F : clear implicits.
