(** Properties of math/interpolate/filter.go and math/calc/deriv.go. *)
From Coq Require Import ZArith List Lia Lra Reals.
From Verif Require Import Base.Res Base.Num Base.IEEE Model.Mat Model.Filter Model.Calc Spec.Matrix Spec.Filtering
  Proof.FilterP Proof.SavGolP Proof.CalcP.
Import ListNotations.
Open Scope R_scope.

(** C28 *)
Theorem C28_convolve_zero : forall cs c xs, (0 <= c < zlen cs)%Z -> (zlen cs <= zlen xs)%Z ->
  exists out, convolve (Kernel cs c) xs ZeroPad = Ok out /\ zlen out = zlen xs /\
    forall i, (0 <= i < zlen xs)%Z -> coord out i = smoothed cs c (ext_zero xs) i.
Proof. exact (fun cs c xs => convolve_sound cs c xs ZeroPad (or_introl eq_refl)). Qed.
Print Assumptions C28_convolve_zero.

Theorem C28_convolve_ends : forall cs c xs, (0 <= c < zlen cs)%Z -> (zlen cs <= zlen xs)%Z ->
  exists out, convolve (Kernel cs c) xs Extension = Ok out /\ zlen out = zlen xs /\
    forall i, (0 <= i < zlen xs)%Z -> coord out i = smoothed cs c (ext_ends xs) i.
Proof. exact (fun cs c xs => convolve_sound cs c xs Extension (or_intror eq_refl)). Qed.
Print Assumptions C28_convolve_ends.

Example C28_example : (0 <= 1 < zlen ([1; 2; 3]%R))%Z /\ (zlen ([1; 2; 3]%R) <= zlen ([4; 5; 6; 7]%R))%Z /\
  smoothed [1; 2; 3] 1 (ext_zero [4; 5; 6; 7]) 0 = 23 /\ smoothed [1; 2; 3] 1 (ext_ends [4; 5; 6; 7]) 0 = 27 /\
  smoothed [1; 2; 3] 1 (ext_ends [4; 5; 6; 7]) 3 = 41.
Proof.
  split; [cbv; split; [discriminate|reflexivity]|]. split; [cbv; discriminate|].
  split; [|split]; cbv -[Rplus Rmult IZR]; ring.
Qed.

(** C29: false of the code at the left end, for both meanings of reflection. *)
Theorem C29_convolve_refuted :
  (exists out, convolve (Kernel [1; 0; 0] 1) [1; 2; 4] Periodic = Ok out /\ coord out 0 = 2 /\
     smoothed [1; 0; 0] 1 (ext_periodic [1; 2; 4]) 0 = 4) /\
  (exists out, convolve (Kernel [1; 0; 0] 1) [1; 2; 4] Reflection = Ok out /\ coord out 0 = 4 /\
     smoothed [1; 0; 0] 1 (ext_mirror [1; 2; 4]) 0 = 2 /\ smoothed [1; 0; 0] 1 (ext_mirror_repeat [1; 2; 4]) 0 = 1).
Proof. exact convolve_bad. Qed.
Print Assumptions C29_convolve_refuted.

(** Missing: the positions left of the centre of the kernel, where the code
    reads one element further in than the extension says (second clause). *)
Theorem C29_convolve_periodic_partial : forall cs c xs, (0 <= c)%Z -> zlen cs = (2 * c + 1)%Z -> (zlen cs <= zlen xs)%Z ->
  exists out, convolve (Kernel cs c) xs Periodic = Ok out /\ zlen out = zlen xs /\
    (forall i, (0 <= i <= c)%Z -> coord out i =
       smoothed cs c (fun k => if (k <? 0)%Z then coord xs (zlen xs - 1 + k) else coord xs k) i) /\
    (forall i, (c <= i < zlen xs)%Z -> coord out i = smoothed cs c (ext_periodic xs) i).
Proof. exact (fun cs c xs => convolve_total cs c xs Periodic). Qed.
Print Assumptions C29_convolve_periodic_partial.

Theorem C29_convolve_mirror_partial : forall cs c xs, (0 <= c)%Z -> zlen cs = (2 * c + 1)%Z -> (zlen cs <= zlen xs)%Z ->
  exists out, convolve (Kernel cs c) xs Reflection = Ok out /\ zlen out = zlen xs /\
    (forall i, (0 <= i <= c)%Z -> coord out i =
       smoothed cs c (fun k => if (k <? 0)%Z then coord xs (1 - k) else coord xs k) i) /\
    (forall i, (c <= i < zlen xs)%Z -> coord out i = smoothed cs c (ext_mirror xs) i).
Proof. exact (fun cs c xs => convolve_total cs c xs Reflection). Qed.
Print Assumptions C29_convolve_mirror_partial.

Example C29_example : zlen ([1; 2; 3]%R) = (2 * 1 + 1)%Z /\ (zlen ([1; 2; 3]%R) <= zlen ([4; 5; 6; 7]%R))%Z /\
  smoothed [1; 2; 3] 1 (ext_periodic [4; 5; 6; 7]) 3 = 32 /\ smoothed [1; 2; 3] 1 (ext_mirror [4; 5; 6; 7]) 3 = 38.
Proof. split; [reflexivity|]. split; [cbv; discriminate|]. split; cbv -[Rplus Rmult IZR]; ring. Qed.

(** C30 *)
Theorem C30_constants : forall cs c v n b, b <> ZeroPad -> (0 <= c)%Z -> zlen cs = (2 * c + 1)%Z -> (zlen cs <= Z.of_nat n)%Z ->
  total cs = 1 -> convolve (Kernel cs c) (repeat v n) b = Ok (repeat v n).
Proof. exact convolve_const. Qed.
Print Assumptions C30_constants.

Theorem C30_tophat : forall w, (0 < w)%Z -> Z.odd w = true ->
  exists cs, new_tophat w = Ok (Kernel cs (w / 2)) /\ zlen cs = w /\ total cs = 1 /\ symmetric cs.
Proof. exact tophat_ok. Qed.
Print Assumptions C30_tophat.

Theorem C30_gaussian : forall w sigma dx, (0 < w)%Z -> Z.odd w = true -> sigma <> 0 ->
  exists cs, new_gaussian exp w sigma dx = Ok (Kernel cs (w / 2)) /\ zlen cs = w /\ total cs = 1 /\ symmetric cs /\
    (exists a, 0 < a /\ forall i, (0 <= i < w)%Z ->
       coord cs i = a * exp (- (IZR (i - w / 2) * dx) * (IZR (i - w / 2) * dx) / (2 * sigma * sigma))).
Proof. exact gaussian_ok. Qed.
Print Assumptions C30_gaussian.

Example C30_example : total [1 / 4; 1 / 2; 1 / 4] = 1 /\ zlen ([1 / 4; 1 / 2; 1 / 4]%R) = (2 * 1 + 1)%Z /\
  (zlen ([1 / 4; 1 / 2; 1 / 4]%R) <= Z.of_nat 7)%Z /\ Z.odd 9 = true.
Proof.
  split; [cbv -[Rplus Rmult Rdiv IZR]; field|]. split; [reflexivity|]. split; [cbv; discriminate|reflexivity].
Qed.

(** C31: false of the code. *)
Theorem C31_lookup_refuted : bc_get Periodic [1; 2; 3] (-1) = Ok 2 /\ ext_periodic [1; 2; 3] (-1) = 3 /\
  (forall xs : list R, bc_get Reflection xs (zlen xs) = Panic).
Proof. exact bc_get_bad. Qed.
Print Assumptions C31_lookup_refuted.

(** Missing: Periodic left of the slice and Reflection right of it. *)
Theorem C31_lookup_partial : forall (b : boundary) xs i, (- zlen xs <= i < 2 * zlen xs)%Z ->
  (b = ZeroPad -> bc_get b xs i = Ok (ext_zero xs i)) /\
  (b = Extension -> bc_get b xs i = Ok (ext_ends xs i)) /\
  (b = Periodic -> (0 <= i)%Z -> bc_get b xs i = Ok (ext_periodic xs i)) /\
  (b = Reflection -> (i < zlen xs)%Z -> bc_get b xs i = Ok (ext_mirror_repeat xs i)).
Proof. exact bc_get_ok. Qed.
Print Assumptions C31_lookup_partial.

Example C31_example : (- zlen ([1; 2; 3]%R) <= 4 < 2 * zlen ([1; 2; 3]%R))%Z /\ bc_get Periodic [1; 2; 3] 4 = Ok 2 /\
  bc_get Reflection [1; 2; 3] (-1) = Ok 1 /\ bc_get Extension [1; 2; 3] 4 = Ok 3 /\ bc_get ZeroPad [1; 2; 3] (-2) = Ok 0.
Proof. split; [cbv; split; [discriminate|reflexivity]|]. split; [|split; [|split]]; reflexivity. Qed.

(** C32.  No condition on the row exchanges of the linear solve is needed: the
    first row is never exchanged, and the right hand side is its unit vector. *)
Theorem C32_savgol : forall m w a x0 h xs b, (0 <= m < w)%Z -> Z.odd w = true -> (zlen a <= m + 1)%Z -> (w <= zlen xs)%Z ->
  (forall j, (0 <= j < zlen xs)%Z -> coord xs j = poly a (x0 + h * IZR j)) ->
  exists k out, new_savgol rpow m w = Ok k /\ zlen (k_cs k) = w /\ convolve k xs b = Ok out /\ zlen out = zlen xs /\
    forall i, (w / 2 <= i < zlen xs - w / 2)%Z -> coord out i = poly a (x0 + h * IZR i).
Proof. exact savgol_thm. Qed.
Print Assumptions C32_savgol.

Example C32_example : (0 <= 2 < 5)%Z /\ Z.odd 5 = true /\ (zlen ([1; 0; 3]%R) <= 2 + 1)%Z /\ (5 <= zlen ([1; 4; 13; 28; 49]%R))%Z /\
  forall j, (0 <= j < zlen ([1; 4; 13; 28; 49]%R))%Z -> coord [1; 4; 13; 28; 49] j = poly [1; 0; 3] (0 + 1 * IZR j).
Proof.
  split; [lia|]. split; [reflexivity|]. split; [cbv; discriminate|]. split; [cbv; discriminate|].
  intros j Hj. change (zlen _) with 5%Z in Hj. assert (j = 0 \/ j = 1 \/ j = 2 \/ j = 3 \/ j = 4)%Z as D by lia.
  repeat destruct D as [-> | D]; [| | | |subst j]; cbv -[Rplus Rmult IZR]; ring.
Qed.

(** C33 *)
Theorem C33_deriv2 : forall xs ys out x0 h a b c, (3 <= zlen xs)%Z -> zlen ys = zlen xs -> zlen out = zlen xs ->
  h <> 0 -> uniform x0 h xs ->
  (forall i, (0 <= i < zlen xs)%Z -> coord ys i = poly [a; b; c] (coord xs i)) ->
  Forall (fun r => exists d, r = Ok d /\ zlen d = zlen xs /\
    forall i, (0 <= i < zlen xs)%Z -> coord d i = poly (dpoly [a; b; c]) (coord xs i)) [deriv_out xs ys out 2; deriv xs ys 2].
Proof. exact deriv2_both. Qed.
Print Assumptions C33_deriv2.

Example C33_example : uniform 1 2 [1; 3; 5] /\
  forall i, (0 <= i < zlen ([1; 3; 5]%R))%Z -> coord [2; 10; 26] i = poly [1; 0; 1] (coord [1; 3; 5] i).
Proof.
  split; intros i Hi; change (0 <= i < 3)%Z in Hi; assert (i = 0 \/ i = 1 \/ i = 2)%Z as D by lia;
    (repeat destruct D as [-> | D]; [| |subst i]); cbv -[Rplus Rmult IZR]; ring.
Qed.

(** C34: false of the code for straight lines already. *)
Theorem C34_deriv4_refuted : exists d, deriv [0; 1; 2; 3; 4] [0; 1; 2; 3; 4] 4 = Ok d /\ coord d 2 = 4 / 3.
Proof. exact deriv4_bad. Qed.
Print Assumptions C34_deriv4_refuted.

(** What holds: the two points at each end are exact, all others are 4/3 of the
    derivative.  Missing: the interior points. *)
Theorem C34_deriv4_partial : forall xs ys out x0 h a b c d e, (5 <= zlen xs)%Z -> zlen ys = zlen xs -> zlen out = zlen xs ->
  h <> 0 -> uniform x0 h xs ->
  (forall i, (0 <= i < zlen xs)%Z -> coord ys i = poly [a; b; c; d; e] (coord xs i)) ->
  Forall (fun r => exists o, r = Ok o /\ zlen o = zlen xs /\
    forall i, (0 <= i < zlen xs)%Z -> coord o i =
      (if ((2 <=? i) && (i <? zlen xs - 2))%Z%bool then 4 / 3 else 1) * poly (dpoly [a; b; c; d; e]) (coord xs i))
    [deriv_out xs ys out 4; deriv xs ys 4].
Proof. exact deriv4_both. Qed.
Print Assumptions C34_deriv4_partial.

Example C34_example : uniform 0 1 [0; 1; 2; 3; 4] /\
  forall i, (0 <= i < zlen ([0; 1; 2; 3; 4]%R))%Z -> coord [0; 1; 16; 81; 256] i = poly [0; 0; 0; 0; 1] (coord [0; 1; 2; 3; 4] i).
Proof.
  split; intros i Hi; change (0 <= i < 5)%Z in Hi; assert (i = 0 \/ i = 1 \/ i = 2 \/ i = 3 \/ i = 4)%Z as D by lia;
    (repeat destruct D as [-> | D]; [| | | |subst i]); cbv -[Rplus Rmult IZR]; ring.
Qed.

(** C181: false of the code: the derivative of order 0 is the abscissae. *)
Theorem C181_zero_refuted : forall {F} {NF : Num F} (xs ys out : list F), zlen ys = zlen xs -> zlen out = zlen xs ->
  deriv_out xs ys out 0 = Ok xs /\ deriv xs ys 0 = Ok xs.
Proof. exact @deriv_zero. Qed.
Print Assumptions C181_zero_refuted.

(** What holds: other orders, and slices of different lengths, are refused. *)
Theorem C181_refused_partial : forall {F} {NF : Num F} (xs ys out : list F) order,
  zlen ys <> zlen xs \/ zlen out <> zlen xs \/ ~ In order [0; 2; 4]%Z -> deriv_out xs ys out order = Panic.
Proof. exact @deriv_refused. Qed.
Print Assumptions C181_refused_partial.
Theorem C181_lengths_partial : forall {F} {NF : Num F} (xs ys : list F) order,
  zlen ys <> zlen xs \/ ~ In order [0; 2; 4]%Z -> deriv xs ys order = Panic.
Proof. exact @deriv_length. Qed.
Print Assumptions C181_lengths_partial.

Example C181_example : zlen [1; 2]%Z = zlen [3; 4]%Z /\ ~ In 3%Z [0; 2; 4]%Z.
Proof. split; [reflexivity|]. cbn. lia. Qed.

(** C103: false of the code when the linear solve exchanges rows: the second
    derivative of t^2 from a fourth order kernel of width 5, in IEEE doubles, is
    smaller than 2^-40 (it should be 2).  math.Pow is repeated multiplication,
    which is exact for the small integers used. *)
Theorem C103_savgol_deriv_refuted :
  match (k <- new_savgol_deriv (fun (x : f64) q => Nat.iter (Z.to_nat q) (nmul x) (nofZ 1)) (nofZ 1) 2 4 5 ;;
         out <- convolve k (map nofZ [4; 1; 0; 1; 4]%Z) Extension ;;
         get out 2)%res with
  | Ok y => nltb (nabs y) (f64lit 1 (-40)) = true
  | _ => False
  end.
Proof. exact savgol_deriv_bad. Qed.
Print Assumptions C103_savgol_deriv_refuted.

(** Missing: the cases in which rows are exchanged. *)
Theorem C103_savgol_deriv_partial : forall d m w a x0 h xs b, (0 <= d <= m)%Z -> (m < w)%Z -> Z.odd w = true ->
  (zlen a <= m + 1)%Z -> (w <= zlen xs)%Z -> h <> 0 ->
  (forall vals luf, zlen vals = ((m + 1) * (m + 1))%Z ->
     (forall i j, (0 <= i < m + 1)%Z -> (0 <= j < m + 1)%Z -> entry (m + 1) vals i j = power_sum (w / 2) (i + j)) ->
     lu (Mat vals (m + 1) (m + 1)) = Ok luf -> forall l, (0 <= l < m + 1)%Z -> nth (Z.to_nat l) (lu_pivot luf) 0%Z = l) ->
  (forall j, (0 <= j < zlen xs)%Z -> coord xs j = poly a (x0 + h * IZR j)) ->
  exists k out, new_savgol_deriv rpow h d m w = Ok k /\ zlen (k_cs k) = w /\ convolve k xs b = Ok out /\ zlen out = zlen xs /\
    forall i, (w / 2 <= i < zlen xs - w / 2)%Z -> coord out i = poly (dpoly_n (Z.to_nat d) a) (x0 + h * IZR i).
Proof. exact savgol_deriv_thm. Qed.
Print Assumptions C103_savgol_deriv_partial.

Example C103_example : forall n vals luf, (1 <= n)%Z -> zlen vals = 4%Z ->
  (forall i j, (0 <= i < 2)%Z -> (0 <= j < 2)%Z -> entry 2 vals i j = power_sum n (i + j)) ->
  lu (Mat vals 2 2) = Ok luf -> forall l, (0 <= l < 2)%Z -> nth (Z.to_nat l) (lu_pivot luf) 0%Z = l.
Proof. exact no_exchange_1. Qed.
