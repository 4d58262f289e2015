(** Model of /repo/math/rand: xorshift.go, tausworthe.go, sobol.go and the
    integer/uniform wrappers of rand.go for Xorshift.  The interface with all
    three backends and the seeding of Tausworthe are in RandGen.v. *)
From Coq Require Import ZArith List Bool.
From Verif Require Import Base.Res Base.Num Base.IEEE.
Import ListNotations.
Open Scope Z_scope.
Open Scope res_scope.

(** ** Xorshift *)

(** xorshift.go:13-15.  The fields are uint32 words: values in [0, 2^32). *)
Record xorst := XorSt { xx : Z; xy : Z; xz : Z; xw : Z }.

(** Go's [a << k] on uint32. *)
Definition shl32 (a k : Z) : Z := (Z.shiftl a k) mod 2 ^ 32.

(** xorshift.go:17-22 *)
Definition xor_init (seed : Z) : xorst :=
  XorSt 123456789 362436069 521288629 (seed mod 2 ^ 32).

(** xorshift.go:25-27 (and again 35-37): one advance of the state. *)
Definition xor_step (s : xorst) : xorst :=
  let t := Z.lxor (xx s) (shl32 (xx s) 11) in
  XorSt (xy s) (xz s) (xw s)
        (Z.lxor (Z.lxor (xw s) (Z.shiftr (xw s) 19)) (Z.lxor t (Z.shiftr t 8))).

(** xorshift.go:28: [float64(math.MaxUint32 - gen.w) / xorshiftMaxUint] *)
Definition xor_value (s : xorst) : f64 :=
  ndiv (nofZ (2 ^ 32 - 1 - xw s)) (nofZ (2 ^ 32 - 1)).

(** xorshift.go:24-31.  The recursion on [res == 1.0] takes fuel. *)
Fixpoint xor_next_fuel (fuel : nat) (s : xorst) : res (f64 * xorst) :=
  match fuel with
  | O => NoFuel
  | S f =>
      let s' := xor_step s in
      let r := xor_value s' in
      if neqb r (nofZ 1) then xor_next_fuel f s' else Ok (r, s')
  end.

Definition xor_next (s : xorst) : res (f64 * xorst) := xor_next_fuel 8 s.

(** xorshift.go:33-41: the index is decremented on a value equal to 1, so the
    slot is written again. *)
Definition xor_next_sequence (fuel : nat) (s : xorst) (target : list f64)
  : res (list f64 * xorst) :=
  loop fuel
    (fun st : Z * list f64 * xorst =>
       let '(i, tg, s) := st in
       if i <? zlen tg then
         let s' := xor_step s in
         tg' <- set tg i (xor_value s') ;;
         v <- get tg' i ;;
         let i' := if neqb v (nofZ 1) then i - 1 else i in
         Ok (inl (i' + 1, tg', s'))
       else Ok (inr (tg, s)))
    (0, target, s).

(** rand.go:56-60 with the Xorshift backend. *)
Definition uniform_int (s : xorst) (low high : Z) : res (Z * xorst) :=
  ' (f, s') <- xor_next s ;;
  Ok (nfloor (nadd (nmul (nofZ (high - low)) f) (nofZ low)), s').

(** rand.go:62-65 with the Xorshift backend. *)
Definition uniform (s : xorst) (low high : f64) : res (f64 * xorst) :=
  ' (f, s') <- xor_next s ;;
  if neqb low (nofZ 0) && neqb high (nofZ 1) then Ok (f, s')
  else Ok (nadd (nmul f (nsub high low)) low, s').

(** ** Tausworthe (a subtractive lagged Fibonacci generator) *)

(** tausworthe.go:6-8 *)
Definition taus_len : Z := 9689.
Definition taus_first : Z := 2444.
Definition taus_second : Z := 4187.

Section Taus.
Context {F : Type} {NF : Num F}.
Open Scope num_scope.

(** tausworthe.go:11-14 *)
Record taus := Taus { tseq : list F; leader : Z; follow1 : Z; follow2 : Z }.

(** tausworthe.go:31-33: the indices set by Init.  The table (16-29) is a
    parameter here; RandGen.taus_seed fills it. *)
Definition taus_init (table : list F) : taus :=
  Taus table 0 taus_first taus_second.

(** tausworthe.go:41-47: [if p == 0 { p = len }; p--] *)
Definition wrap_dec (n p : Z) : Z := (if (p =? 0)%Z then n else p) - 1.

(** tausworthe.go:36-50 *)
Definition taus_next (g : taus) : res (F * taus) :=
  a <- get (tseq g) (follow1 g) ;;
  b <- get (tseq g) (follow2 g) ;;
  let d := (a - b)%num in
  let next := if (d <? #0)%num then (d + #1)%num else d in
  seq' <- set (tseq g) (leader g) next ;;
  let n := zlen seq' in
  Ok (next, Taus seq' (wrap_dec n (leader g)) (wrap_dec n (follow1 g))
                 (wrap_dec n (follow2 g))).

(** tausworthe.go:52-68: the body is a copy of Next's. *)
Definition taus_next_sequence (g : taus) (target : list F) : res (list F * taus) :=
  for_ 0 (zlen target)
    (fun i (st : list F * taus) =>
       let '(tg, g) := st in
       a <- get (tseq g) (follow1 g) ;;
       b <- get (tseq g) (follow2 g) ;;
       let d := (a - b)%num in
       let next := if (d <? #0)%num then (d + #1)%num else d in
       seq' <- set (tseq g) (leader g) next ;;
       let n := zlen seq' in
       tg' <- set tg i next ;;
       Ok (tg', Taus seq' (wrap_dec n (leader g)) (wrap_dec n (follow1 g))
                     (wrap_dec n (follow2 g))))
    (target, g).
End Taus.
Arguments taus : clear implicits.

(** ** Sobol sequence *)

(** sobol.go:9-14 *)
Definition MaxDim : Z := 6.
Definition MaxBit : Z := 30.
Definition maxSeqNum : Z := 2 ^ 30.

(** sobol.go:17-21.  initIv is padded with zeroes to MaxBit*MaxDim entries. *)
Definition initMDeg : list Z := [1;2;3;3;4;4].
Definition initIp : list Z := [0;1;1;2;1;4].
Definition initIv : list Z :=
  [1;1;1;1;1;1;3;1;3;3;1;1;5;7;7;3;3;5;15;11;5;15;13;9] ++ repeat 0 156.

(** sobol.go:24-31; the unused field [fac] is left out. *)
Record sobol := Sobol {
  seqNum : Z; six : list Z; smdeg : list Z; sip : list Z; siv : list Z; isInit : bool }.

(** [&SobolSequence{}] (sobol.go:34): everything zero. *)
Definition sobol_zero : sobol :=
  Sobol 0 (repeat 0 6) (repeat 0 6) (repeat 0 6) (repeat 0 180) false.

(** sobol.go:60-63: [for l := deg-1; l >= 1; l--]; [n] is the trip count. *)
Fixpoint sobol_xors (n : nat) (iv : list Z) (j k ipp i : Z) : res Z :=
  match n with
  | O => Ok i
  | S n' =>
      i' <- (if Z.land 1 ipp =? 1
             then v <- get iv (MaxDim * (j - 1) + k) ;; Ok (Z.lxor i v)
             else Ok i) ;;
      sobol_xors n' iv j k (Z.shiftr ipp 1) i'
  end.

(** sobol.go:49-67: the direction numbers. *)
Definition sobol_directions (mdeg ip iv : list Z) : res (list Z) :=
  for_ 0 MaxDim
    (fun k iv =>
       deg <- get mdeg k ;;
       iv1 <- for_ 0 deg
         (fun j iv =>
            v <- get iv (MaxDim * j + k) ;;
            set iv (MaxDim * j + k) (shl32 v (MaxBit - j - 1))) iv ;;
       for_ deg MaxBit
         (fun j iv =>
            ipp <- get ip k ;;
            i0 <- get iv (MaxDim * (j - deg) + k) ;;
            let i1 := Z.lxor i0 (Z.shiftr i0 deg) in
            i2 <- sobol_xors (Z.to_nat (deg - 1)) iv j k ipp i1 ;;
            set iv (MaxDim * j + k) i2) iv1) iv.

(** sobol.go:40-70 *)
Definition sobol_init (s : sobol) : res sobol :=
  let ix := map (fun _ => 0) (six s) in
  if isInit s then Ok (Sobol (seqNum s) ix (smdeg s) (sip s) (siv s) true)
  else
    iv <- sobol_directions initMDeg initIp initIv ;;
    Ok (Sobol 0 ix initMDeg initIp iv true).

(** sobol.go:33-37 *)
Definition new_sobol : res sobol := sobol_init sobol_zero.

(** sobol.go:92-95: index of the lowest zero bit, MaxBit if there is none. *)
Fixpoint low_zero (n : nat) (z num : Z) : Z :=
  match n with
  | O => z
  | S n' => if Z.land num (Z.shiftl 1 z) =? 0 then z else low_zero n' (z + 1) num
  end.

(** sobol.go:80-102 with [len(target) = dim]; the filled target is returned.
    seqNum is a uint32; it stays below 2^30+1, so no wrap-around occurs. *)
Definition sobol_next (s : sobol) (dim : Z) : res (list f64 * sobol) :=
  if dim >? MaxDim then Fatal
  else if seqNum s >=? maxSeqNum then Fatal
  else
    let num := seqNum s + 1 in
    let im := low_zero 30 0 num * MaxDim in
    ' (target, ix) <- for_ 0 dim
      (fun k (st : list f64 * list Z) =>
         let '(target, ix) := st in
         x <- get ix k ;;
         v <- get (siv s) (im + k) ;;
         ix' <- set ix k (Z.lxor x v) ;;
         x' <- get ix' k ;;
         target' <- set target k (nmul (nofZ x') (f64lit 1 (-30))) ;;
         Ok (target', ix'))
      (repeat (nofZ 0) (Z.to_nat dim), six s) ;;
    Ok (target, Sobol num ix (smdeg s) (sip s) (siv s) (isInit s)).
