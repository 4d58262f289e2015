(** Model of /repo/render/scripts/read_halo.go: choosing halos and writing the
    settings for rendering them.  [D] is float64.  Reading the catalogue, the
    texts of the scripts and writing files are not modelled; sort.Sort is a
    sequence of swaps; the grid and the subhalo finder are in Halo.v. *)
From Coq Require Import ZArith List Bool.
From Verif Require Import Base.Res Base.Num Model.Cosmo Model.Catalog Model.Halo.
Import ListNotations.
Open Scope Z_scope.
Open Scope res_scope.

Section ReadHalo.
Context {D : Type} {ND : Num D}.

(** read_halo.go:61-64 *)
Record halos := HS { hs_ids : list Z; hs_xs : list D; hs_ys : list D; hs_zs : list D;
                     hs_m200ms : list D; hs_r200ms : list D; hs_rPrints : list D }.

(** read_halo.go:66-69 *)
Record halo1 := H1 { h_ih : Z; h_x : D; h_y : D; h_z : D; h_r : D }.

(** read_halo.go:76 *)
Definition halos_len (hs : halos) : Z := zlen (hs_r200ms hs).

(** read_halo.go:77 *)
Definition halos_less (hs : halos) (i j : Z) : res bool :=
  a <- get (hs_r200ms hs) i ;; b <- get (hs_r200ms hs) j ;; Ok (a <? b)%num.

(** read_halo.go:78-86 *)
Definition halos_swap (hs : halos) (i j : Z) : res halos :=
  ids <- swap (hs_ids hs) i j ;;
  r200ms <- swap (hs_r200ms hs) i j ;;
  m200ms <- swap (hs_m200ms hs) i j ;;
  rPrints <- swap (hs_rPrints hs) i j ;;
  xs <- swap (hs_xs hs) i j ;;
  ys <- swap (hs_ys hs) i j ;;
  zs <- swap (hs_zs hs) i j ;;
  Ok (HS ids xs ys zs m200ms r200ms rPrints).

(** The swaps made by sort.Sort in read_halo.go:136. *)
Fixpoint halos_swaps (hs : halos) (l : list (Z * Z)) : res halos :=
  match l with [] => Ok hs | (i, j) :: l => hs <- halos_swap hs i j ;; halos_swaps hs l end.

Variables (fsqrt : D -> D) (fpow : D -> D -> D) (k : cosmo_consts D).

(** read_halo.go:119-120; rType is R200m (line 27). *)
Definition catalog_radii (c : cosmo_header D) (m200ms : list D) : res (list D) :=
  radius_of fsqrt fpow k R200m c m200ms (repeat (nofZ 0) (List.length m200ms)).

(** read_halo.go:124-134: rPrints.  The masses in line 133 are not used. *)
Definition print_radii (rPrintType : Z) (c : cosmo_header D) (col : list D) : res (list D) :=
  mass <- rockstar_mass rPrintType ;;
  if (mass : bool) then radius_of fsqrt fpow k R200m c col (repeat (nofZ 0) (List.length col))
  else Ok (map (fun r => r / #1000)%num col).

(** read_halo.go:157-165, one target: the result is 0 if it is not found. *)
Fixpoint target_index (ids : list Z) (target j : Z) : Z :=
  match ids with [] => 0 | id :: ids => if id =? target then j else target_index ids target (j + 1) end.

(** read_halo.go:156-165 *)
Definition target_indexes (ids targets : list Z) : list Z := map (fun t => target_index ids t 0) targets.

(** read_halo.go:185-187 *)
Definition new_halo (ih : Z) (xs ys zs rs : list D) : res halo1 :=
  x <- get xs ih ;; y <- get ys ih ;; z <- get zs ih ;; r <- get rs ih ;; Ok (H1 ih x y z r).

(** read_halo.go:189-195 *)
Definition new_halos (ihs : list Z) (xs ys zs rs : list D) : res (list halo1) :=
  tabulate (zlen ihs) (fun i => ih <- get ihs i ;; new_halo ih xs ys zs rs).

(** read_halo.go:197-202 *)
Definition particles (L l : D) (pixels : Z) : Z :=
  let n := ntrunc (#1000 * fpow (L / (#3 * l)) #3 * fpow (#pixels / #500) #3)%num in
  if n <? 20 then 20 else n.

(** read_halo.go:30-32, 208, 226 and 228: number of particles and radius of the
    ball. *)
Definition render_settings (L : D) (h : halo1) : Z * D :=
  let R := (h_r h * #3)%num in (particles L (#2 * R)%num 400, R).

(** read_halo.go:107-136: the columns after sorting; [table k] is column k of the
    catalogue and [swaps] are those made by sort.Sort. *)
Definition load_halos (swaps : list (Z * Z)) (rPrintType : Z) (c : cosmo_header D) (table : Z -> list D) : res halos :=
  r200mCol <- rockstar_column R200m ;;
  rPrintCol <- rockstar_column rPrintType ;;
  let ids := map ntrunc (table 1) in
  let m200ms := table r200mCol in
  r200ms <- catalog_radii c m200ms ;;
  rPrints <- print_radii rPrintType c (table rPrintCol) ;;
  halos_swaps (HS ids (table 17) (table 18) (table 19) m200ms r200ms rPrints) swaps.

(** read_halo.go:170-181 and 204-241: the numbers that are printed and written for
    one halo. *)
Record output := OUT { o_subhalos : Z; o_hosts : Z; o_settings : Z * D; o_halo : halo1; o_intrs : list halo1 }.
Definition write_halo (L : D) (hs : halos) (sf : finder) (ih : Z) : res output :=
  m <- get (hs_m200ms hs) ih ;;
  s <- subhalo_count sf ih ;;
  h <- host_count sf ih ;;
  halo <- new_halo ih (hs_xs hs) (hs_ys hs) (hs_zs hs) (hs_rPrints hs) ;;
  subs <- subhalos sf ih ;;
  intrs <- new_halos subs (hs_xs hs) (hs_ys hs) (hs_zs hs) (hs_rPrints hs) ;;
  Ok (OUT s h (render_settings L halo) halo intrs).

(** read_halo.go:100-183 with the targets as an argument; finderCells is 150 and
    overlapMult is 3. *)
Definition read_halo_main (swaps : list (Z * Z)) (rPrintType : Z) (c : cosmo_header D) (table : Z -> list D) (L : D) (targets : list Z) :
  res (list output) :=
  hs <- load_halos swaps rPrintType c table ;;
  g <- new_grid 150 L (zlen (hs_xs hs)) ;;
  g <- insert g (hs_xs hs) (hs_ys hs) (hs_zs hs) ;;
  '(sf, _) <- find_subhalos g (new_finder (zlen (gr_next g))) (hs_xs hs) (hs_ys hs) (hs_zs hs) (hs_r200ms hs) (#3)%num ;;
  let idxs := target_indexes (hs_ids hs) targets in
  tabulate (zlen idxs) (fun i => ih <- get idxs i ;; write_halo L hs sf ih).

(** read_halo.go:251-254 *)
Fixpoint find_idx_from (xs : list D) (x : D) (i : Z) : Z :=
  match xs with [] => i | xx :: xs => if (xx <? x)%num then i else find_idx_from xs x (i + 1) end.
Definition find_idx (xs : list D) (x : D) : Z := find_idx_from xs x 0.
End ReadHalo.
Arguments halos D : clear implicits.
Arguments halo1 D : clear implicits.
Arguments output D : clear implicits.
