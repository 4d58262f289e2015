(** Examples of the finder and the grid in float64. *)
From Coq Require Import ZArith List Bool Lia ZifyBool ZifyNat Reals Lra.
From Verif Require Import Base.Res Base.ResFacts Base.Num Base.IEEE Model.Halo Spec.Geometry Spec.Halos Spec.HaloDefs.
From Verif Require Import Proof.HaloP Proof.HaloT.
Import ListNotations.
Open Scope Z_scope.

Lemma large_missed : found_lists 4 8 [4; 5] [4; 4] [4; 4] [3; 1] = Ok [[]; []].
Proof. vm_compute. reflexivity. Qed.
Lemma large_panics : found_lists 4 8 [4; 5] [4; 4] [4; 4] [12; 1] = Panic.
Proof. vm_compute. reflexivity. Qed.
Lemma large_meet : spheres_meet (4, 4, 4)%R (5, 4, 4)%R 3%R 1%R.
Proof. apply meet_iff; try lra. cbn. lra. Qed.
Lemma small_found : found_lists 4 8 [4; 5] [4; 4] [4; 4] [1; 1] = Ok [[1]; [0]].
Proof. vm_compute. reflexivity. Qed.

Lemma reuse_first : found_lists 4 100 [5; 6; 40; 41] [5; 5; 5; 5] [5; 5; 5; 5] [2; 2; 1; 1] = Ok [[1]; [0]; [3]; [2]].
Proof. vm_compute. reflexivity. Qed.
Lemma reuse_second : found_again 4 100 [5; 6; 40; 41] [5; 5; 5; 5] [5; 5; 5; 5] [2; 2; 1; 1] = Ok [[1]; [0]; [3]; [0; 0; 0; 0; 0; 0; 0; 0; 2]].
Proof. vm_compute. reflexivity. Qed.

(** No halos: the last radius is read. *)
Lemma no_halos {D} {ND : Num D} (c : Z) (W mult : D) (sf : finder) : 1 <= c -> exists g,
  new_grid c W 0 = Ok g /\ insert g [] [] [] = Ok g /\ find_subhalos g sf [] [] [] [] mult = Panic.
Proof.
  intros Hc. unfold new_grid. replace (c * c * c <? 0) with false by nia. cbn [orb Z.ltb Z.compare]. eexists. split; [reflexivity|]. split; [reflexivity|].
  unfold find_subhalos. set (g := HGr _ _ _ _ _).
  assert (M : max_length g = Ok 0).
  { assert (W0 : wp (max_length g) (fun m => m = 0)).
    { unfold max_length. apply (for_inv (fun _ m => m = 0)); auto.
      - unfold total_cells. apply zlen_nonneg.
      - intros i m Hi ->. unfold total_cells in Hi. unfold grid_length. rewrite (get_ok 0) by auto. cbn [bind]. cbn [g gr_heads] in *. rewrite zlen_repeat in Hi. rewrite zn_repeat by lia. reflexivity. }
    apply (proj1 (wp_ok _ _)) in W0. destruct W0 as (m & -> & ->). reflexivity. }
  rewrite M. reflexivity.
Qed.

(** The largest float64 below the width. *)
Lemma below_width_125 : match new_grid 3 (nofZ 125 : f64) 1 with Ok g => insert g [nofZ 1] [nofZ 1] [f64lit (125 * 2 ^ 46 - 1) (-46)] | _ => NoFuel end = Panic.
Proof. vm_compute. reflexivity. Qed.
Lemma below_width_100 : match new_grid 150 (nofZ 100 : f64) 1 with Ok g => insert g [nofZ 1] [nofZ 1] [f64lit (100 * 2 ^ 46 - 1) (-46)] | _ => NoFuel end = Panic.
Proof. vm_compute. reflexivity. Qed.
Lemma below_less : nltb (f64lit (125 * 2 ^ 46 - 1) (-46)) (nofZ 125 : f64) = true /\ nltb (f64lit (100 * 2 ^ 46 - 1) (-46)) (nofZ 100 : f64) = true.
Proof. split; vm_compute; reflexivity. Qed.
