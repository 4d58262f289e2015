(** Histories of a worker's buffer, averages and powers of two. *)
From Coq Require Import ZArith List Reals Bool.
From Verif Require Import Base.Res Base.Num Model.Geom Model.GridDeriv Model.Density Model.Render.
Import ListNotations.
Open Scope Z_scope.

(** Everything that happens to a worker's buffer: it is made once, then prepared
    for file after file and written to in between. *)
Inductive history {D} {ND : Num D} (q len : Z) : buffer D -> Prop :=
| h_new b : new_buffer q len = Ok b -> history q len b
| h_prepare b n b' : history q len b -> prepare b n = Ok b' -> history q len b'
| h_value k s i v s' : history q len (SBuf k s) -> gset s i v = Ok s' -> history q len (SBuf k s')
| h_vector k s m i v s' : history q len (VBuf k s m) -> gset s i v = Ok s' -> history q len (VBuf k s' m)
| h_number k s m i v m' : history q len (VBuf k s m) -> gset m i v = Ok m' -> history q len (VBuf k s m').

(** n zeros are visible. *)
Definition clean {D} {ND : Num D} (b : buffer D) (n : Z) : Prop :=
  match b with
  | SBuf _ s => vis s = n /\ visible s = repeat (nofZ 0) (Z.to_nat n)
  | VBuf _ s m => vis s = n /\ vis m = n /\ visible s = repeat zero3 (Z.to_nat n) /\ visible m = repeat 0 (Z.to_nat n)
  end.

Definition power_of_two (x : Z) : Prop := exists k, 0 <= k /\ x = 2 ^ k.

(** The average of the points of a cell, 0 where there is none. *)
Definition average (total : R) (n : Z) : R := if n =? 0 then 0%R else (total / IZR n)%R.

(** The three averages of every cell. *)
Definition averages_of (vecs : list (vec3 R)) (num : list Z) (out : vec3 (list R)) : Prop :=
  let n := zlen vecs in
  zlen (v0 out) = n /\ zlen (v1 out) = n /\ zlen (v2 out) = n /\
  forall i, 0 <= i < n ->
    let v := nth (Z.to_nat i) vecs (V3 0 0 0)%R in let c := nth (Z.to_nat i) num 0 in
    nth (Z.to_nat i) (v0 out) 0%R = average (v0 v) c /\
    nth (Z.to_nat i) (v1 out) 0%R = average (v1 v) c /\
    nth (Z.to_nat i) (v2 out) 0%R = average (v2 v) c.
