(** Model of the interface Buffer of /repo/render/density/buffer.go as its
    seven implementations answer it, and of its use by WriteBuffer of
    /repo/render/io/output.go. *)
From Coq Require Import ZArith List Bool.
From Verif Require Import Base.Res Base.Num Model.Geom Model.GridDeriv Model.Density Model.Box Model.RenderMain.
Import ListNotations.
Open Scope Z_scope.
Open Scope res_scope.

Section Iface.
Context {D F : Type} {ND : Num D} {NF : Num F} (down : D -> F) (up : F -> D).

(** The raw scalarBuffer and vectorBuffer (buffer.go:74, 129), and the five
    kinds that embed them; [loc] is the pointer field [g] (buffer.go:216, 316,
    382), None for nil and for the kinds without the field.  The scratch field
    [weights] is left out, as in Density.v. *)
Inductive gbuf :=
| GScalar (vals : gslice D)
| GVector (vecs : gslice (vec3 D))
| GKind (b : buffer D) (loc : option (grid_location D)).

(** buffer.go:28 *)
Definition nil_buffer : gbuf := GScalar (GS [] 0).

(** buffer.go:30-64 *)
Definition g_new (q len : Z) (g : option (grid_location D)) : res gbuf :=
  b <- new_buffer q len ;;
  Ok (GKind b (if (q =? DensityGradient) || (q =? VelocityDivergence) || (q =? VelocityCurl) then g else None)).

(** buffer.go:66-68 *)
Definition wrapper_density_buffer (rhos : list D) : gbuf :=
  GKind (SBuf Density (GS rhos (zlen rhos))) None.

(** buffer.go:78-80, 133-135, 265-268, 321-324, 387-390 *)
Definition g_slice (b : gbuf) (low high : Z) : res gbuf :=
  match b with
  | GScalar vals => v <- reslice vals low high ;; Ok (GScalar v)
  | GVector vecs => v <- reslice vecs low high ;; Ok (GVector v)
  | GKind b loc => b <- buf_slice b low high ;; Ok (GKind b loc)
  end.

(** buffer.go:82-84, 137-139 *)
Definition g_length (b : gbuf) : Z :=
  match b with GScalar vals => vis vals | GVector vecs => vis vecs | GKind b _ => buf_length b end.

(** buffer.go:86-88, 141-145, 270-275, 326-331, 392-397 *)
Definition g_clear (b : gbuf) : res gbuf :=
  match b with
  | GScalar vals => v <- for_ 0 (vis vals) (fun i v => gset v i (#0)%num) vals ;; Ok (GScalar v)
  | GVector vecs => v <- for_ 0 (vis vecs) (fun i v => gset v i zero3) vecs ;; Ok (GVector v)
  | GKind b loc => b <- buf_clear b ;; Ok (GKind b loc)
  end.

(** buffer.go:92-94, 149-151, 202, 225, 281, 337, 403 *)
Definition g_quantity (b : gbuf) : res Z :=
  match b with GScalar _ | GVector _ => Panic | GKind (SBuf q _) _ => Ok q | GKind (VBuf q _ _) _ => Ok q end.

(** buffer.go:96, 153, 227, 339, 405 *)
Definition g_set_location (b : gbuf) (g : option (grid_location D)) : gbuf :=
  match b with
  | GKind (SBuf q vals) loc => GKind (SBuf q vals) (if q =? DensityGradient then g else loc)
  | GKind (VBuf q vecs num) loc => GKind (VBuf q vecs num) (if q =? Velocity then loc else g)
  | _ => b
  end.

(** buffer.go:156-158 *)
Definition copy_vectors (dst : gslice (vec3 D)) (vecs : list (vec3 F)) : res (gslice (vec3 D)) :=
  for_ 0 (zlen vecs) (fun i s => v <- get vecs i ;; gset s i (vmap up v)) dst.

(** buffer.go:98, 155-160 *)
Definition g_set_vectors (b : gbuf) (vecs : list (vec3 F)) : res (gbuf * bool) :=
  match b with
  | GScalar _ | GKind (SBuf _ _) _ => Ok (b, false)
  | GVector dst => d <- copy_vectors dst vecs ;; Ok (GVector d, true)
  | GKind (VBuf q dst num) loc => d <- copy_vectors dst vecs ;; Ok (GKind (VBuf q d num) loc, true)
  end.

(** buffer.go:103-105, 164-166, 289-291, 370-372, 411-413; None for [ok = false]. *)
Definition g_count (b : gbuf) : option (list Z) :=
  match b with GKind (VBuf _ _ num) _ => Some (visible num) | _ => None end.

(** buffer.go:107-109, 168-170 *)
Definition g_scalar (b : gbuf) : option (list D) :=
  match b with
  | GScalar vals | GKind (SBuf _ vals) _ => Some (visible vals)
  | GVector _ | GKind (VBuf _ _ _) _ => None
  end.

(** buffer.go:111-113, 172-174 *)
Definition g_vector (b : gbuf) : option (list (vec3 D)) :=
  match b with
  | GVector vecs | GKind (VBuf _ vecs _) _ => Some (visible vecs)
  | GScalar _ | GKind (SBuf _ _) _ => None
  end.

(** A method called through the pointer [g]. *)
Definition located {A} (loc : option (grid_location D)) (f : grid_location D -> res A) : res A :=
  match loc with Some g => f g | None => Panic end.

(** buffer.go:115-119, 176-178, 235-237, 345-364 *)
Definition g_final_scalar (b : gbuf) : res (option (list F)) :=
  match b with
  | GScalar vals => Ok (Some (finalized_scalar down (visible vals)))
  | GVector _ => Ok None
  | GKind (SBuf q vals) _ =>
      if q =? DensityGradient then Ok None else Ok (Some (finalized_scalar down (visible vals)))
  | GKind (VBuf q vecs num) loc =>
      if q =? VelocityDivergence then
        xs <- located loc (fun g => finalized_divergence down g (visible vecs) (visible num)) ;; Ok (Some xs)
      else Ok None
  end.

(** buffer.go:180-188 *)
Definition finalized_vectors (vecs : list (vec3 D)) : vec3 (list F) :=
  V3 (map (fun v => down (v0 v)) vecs) (map (fun v => down (v1 v)) vecs) (map (fun v => down (v2 v)) vecs).

(** buffer.go:121-123, 180-188, 239-250, 293-306, 366-368, 415-429 *)
Definition g_final_vector (b : gbuf) : res (option (vec3 (list F))) :=
  match b with
  | GScalar _ => Ok None
  | GVector vecs => Ok (Some (finalized_vectors (visible vecs)))
  | GKind (SBuf q vals) loc =>
      if q =? DensityGradient then
        xs <- located loc (fun g => finalized_gradient down g (visible vals)) ;; Ok (Some xs)
      else Ok None
  | GKind (VBuf q vecs num) loc =>
      if q =? VelocityDivergence then Ok None
      else if q =? VelocityCurl then
        xs <- located loc (fun g => finalized_curl down g (visible vecs) (visible num)) ;; Ok (Some xs)
      else xs <- finalized_velocity down (visible vecs) (visible num) ;; Ok (Some xs)
  end.

(** output.go:149 and 154-166: the quantity recorded and the numbers that follow. *)
Definition g_write (b : gbuf) : res (Z * image F) :=
  q <- g_quantity b ;;
  s <- g_final_scalar b ;;
  match s with
  | Some xs => Ok (q, Plain xs)
  | None =>
      v <- g_final_vector b ;;
      match v with Some xs => Ok (q, Triple xs) | None => Panic end
  end.
End Iface.
Arguments gbuf D : clear implicits.
