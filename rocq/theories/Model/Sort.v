(** math/sort of /repo: Shell, Quick, partition, sort3, Reverse, NthLargest,
    Median, Percentile.  Slices are lists; in-place functions return the new
    contents.  Distinct slice arguments are assumed not to alias. *)
From Coq Require Import ZArith List Bool.
From Verif Require Import Base.Res Base.Num.
Import ListNotations.
Open Scope Z_scope.
Open Scope res_scope.

Section Sort.
Context {F : Type} {N : Num F}.

(** math/sort/sort.go:9-15 Reverse *)
Definition reverse (xs : list F) : res (list F) :=
  let n1 := zlen xs - 1 in
  let n2 := zlen xs / 2 in
  for_ 0 n2 (fun i xs => swap xs i (n1 - i)) xs.

(** math/sort/shell.go:18-22, the innermost loop; the state is (xs, j). *)
Definition shell_shift (fuel : nat) (inc : Z) (v : F) (xs : list F) (j : Z)
  : res (list F * Z) :=
  loop fuel (fun '(xs, j) =>
    a <- get xs (j - inc) ;;
    if nltb v a then
      xs' <- set xs j a ;;
      let j' := j - inc in
      if j' <? inc then Ok (inr (xs', j')) else Ok (inl (xs', j'))
    else Ok (inr (xs, j))) (xs, j).

(** math/sort/shell.go:15-24, one pass with increment [inc]. *)
Definition shell_pass (inc : Z) (xs : list F) : res (list F) :=
  for_ inc (zlen xs) (fun i xs =>
    v <- get xs i ;;
    '(xs', j) <- shell_shift (S (length xs)) inc v xs i ;;
    set xs' j v) xs.

(** math/sort/shell.go:9-12, first value of [inc]. *)
Definition shell_inc0 (n : Z) : res Z :=
  loop (Z.to_nat (n + 2)) (fun inc =>
    if inc <=? n then Ok (inl (inc * 3 + 1)) else Ok (inr inc)) 1.

(** math/sort/shell.go:5-27 Shell *)
Definition shell (xs : list F) : res (list F) :=
  let n := zlen xs in
  if n =? 1 then Ok xs
  else
    inc0 <- shell_inc0 n ;;
    loop (S (Z.to_nat inc0)) (fun '(xs, inc) =>
      if 1 <? inc then
        let inc' := inc / 3 in
        xs' <- shell_pass inc' xs ;;
        Ok (inl (xs', inc'))
      else Ok (inr xs)) (xs, inc0).

(** math/sort/quick.go:11-33 sort3; the result is (max, mid, min). *)
Definition sort3 (x y z : F) : F * F * F :=
  if nltb y x then
    if nltb z x then
      if nltb z y then (x, y, z) else (x, z, y)
    else (z, x, y)
  else
    if nltb z y then
      if nltb z x then (y, x, z) else (y, z, x)
    else (z, y, x).

(** math/sort/quick.go:63: for xs[lo] < mid { lo++ } *)
Definition scan_up (fuel : nat) (xs : list F) (mid : F) (lo : Z) : res Z :=
  loop fuel (fun lo =>
    a <- get xs lo ;;
    if nltb a mid then Ok (inl (lo + 1)) else Ok (inr lo)) lo.

(** math/sort/quick.go:65: for xs[hi] > mid { hi-- } *)
Definition scan_down (fuel : nat) (xs : list F) (mid : F) (hi : Z) : res Z :=
  loop fuel (fun hi =>
    a <- get xs hi ;;
    if nltb mid a then Ok (inl (hi - 1)) else Ok (inr hi)) hi.

(** math/sort/quick.go:52-74 partition; returns the slice and the pivot index. *)
Definition partition (xs : list F) : res (list F * Z) :=
  let n := zlen xs in
  let n2 := zlen xs / 2 in
  let fuel := S (length xs) in
  a <- get xs 0 ;;
  b <- get xs n2 ;;
  c <- get xs (n - 1) ;;
  let '(max, mid, min) := sort3 a b c in
  xs <- set xs 0 min ;;
  xs <- set xs n2 mid ;;
  xs <- set xs (n - 1) max ;;
  xs <- swap xs 1 n2 ;;
  '(xs, hi) <- loop fuel (fun '(xs, lo, hi) =>
     lo <- scan_up fuel xs mid (lo + 1) ;;
     hi <- scan_down fuel xs mid (hi - 1) ;;
     if hi <? lo then Ok (inr (xs, hi))
     else
       xs <- swap xs lo hi ;;
       Ok (inl (xs, lo, hi))) (xs, 1, n - 1) ;;
  xs <- swap xs 1 hi ;;
  Ok (xs, hi).

(** math/sort/quick.go:7-9 *)
Definition manualLen : Z := 25.

(** math/sort/quick.go:37-46 Quick.  The two sub-slices are disjoint parts of
    the same array, so sorting them in place is concatenation of the results. *)
Fixpoint quick_fuel (fuel : nat) (xs : list F) : res (list F) :=
  match fuel with
  | O => NoFuel
  | S f =>
      if zlen xs <? manualLen then shell xs
      else
        '(xs, piv) <- partition xs ;;
        l <- quick_fuel f (firstn (Z.to_nat piv) xs) ;;
        r <- quick_fuel f (skipn (Z.to_nat piv) xs) ;;
        Ok (l ++ r)
  end.

Definition quick (xs : list F) : res (list F) := quick_fuel (S (length xs)) xs.

(** math/sort/median.go:44-78 nthLargest; returns the value and the final
    contents of the scratch slice. *)
Fixpoint nth_largest_fuel (fuel : nat) (xs : list F) (n : Z) : res (F * list F) :=
  match fuel with
  | O => NoFuel
  | S f =>
      if zlen xs =? 1 then
        a <- get xs 0 ;; Ok (a, xs)
      else if zlen xs =? 2 then
        a <- get xs 0 ;;
        b <- get xs 1 ;;
        xs <- (if nltb b a then swap xs 0 1 else Ok xs) ;;
        if n <=? 2 then v <- get xs (2 - n) ;; Ok (v, xs) else Panic
      else if zlen xs =? 3 then
        a <- get xs 0 ;;
        b <- get xs 1 ;;
        c <- get xs 2 ;;
        let '(high, mid, low) := sort3 a b c in
        if n =? 1 then Ok (high, xs)
        else if n =? 2 then Ok (mid, xs)
        else if n =? 3 then Ok (low, xs)
        else Panic
      else
        '(xs, piv) <- partition xs ;;
        let nPiv := zlen xs - piv in
        if n <? nPiv then
          '(v, r) <- nth_largest_fuel f (skipn (Z.to_nat piv) xs) n ;;
          Ok (v, firstn (Z.to_nat piv) xs ++ r)
        else if nPiv <? n then
          '(v, l) <- nth_largest_fuel f (firstn (Z.to_nat piv) xs) (n - nPiv) ;;
          Ok (v, l ++ skipn (Z.to_nat piv) xs)
        else
          v <- get xs piv ;; Ok (v, xs)
  end.

(** Go's copy(dst, src) on whole slices. *)
Definition copy {A} (dst src : list A) : list A :=
  firstn (length dst) src ++ skipn (length src) dst.

(** math/sort/median.go:25-42 NthLargest.  [buf] is the optional scratch slice;
    the result pairs the value with the final contents of the scratch slice.
    The make()d slice's zeros are represented by a copy of xs since it is
    overwritten at once. *)
Definition NthLargest (xs : list F) (n : Z) (buf : option (list F)) : res (F * list F) :=
  if zlen xs =? 0 then Panic
  else
    med <- match buf with
           | None => Ok xs
           | Some b => if zlen b =? zlen xs then Ok b else Panic
           end ;;
    let med := copy med xs in
    nth_largest_fuel (S (length med)) med n.

(** math/sort/median.go:16-22 Median *)
Definition Median (xs : list F) (buf : option (list F)) : res (F * list F) :=
  if zlen xs =? 0 then Panic else NthLargest xs (zlen xs / 2) buf.

(** math/sort/median.go:3-14 Percentile *)
Definition Percentile (xs : list F) (p : F) (buf : option (list F)) : res (F * list F) :=
  if zlen xs =? 0 then Panic
  else if nltb (nofZ 1) p || nltb p (nofZ 0) then Panic
  else
    let n := ntrunc (nmul p (nofZ (zlen xs))) in
    let n := if n =? zlen xs then n - 1 else n in
    NthLargest xs n buf.

End Sort.
