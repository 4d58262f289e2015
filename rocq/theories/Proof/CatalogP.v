(** Radius definitions, densities, catalogues. *)
From Coq Require Import ZArith Reals String Ascii List Bool Sorted Permutation Lia ZifyBool ZifyNat Lra.
From Flocq Require Import Core.Raux.
From Verif Require Import Base.Res Base.ResFacts Base.Num Base.Bytes Model.SheetIO Model.Config Model.Cosmo Model.Catalog.
From Verif Require Import Spec.Files Spec.Work Spec.Catalogs Proof.BytesP Proof.WorkP Proof.HaloP.
Import ListNotations.
Open Scope R_scope.

Ltac rn := cbn [nadd nsub nmul ndiv nopp nabs nltb nleb neqb nofZ ntrunc nfloor RNum] in *.

(** ** Names *)
Lemma low_nat c : nat_of_ascii (low_ascii c) =
  (if (65 <=? nat_of_ascii c)%nat && (nat_of_ascii c <=? 90)%nat then nat_of_ascii c + 32 else nat_of_ascii c)%nat.
Proof.
  unfold low_ascii. destruct ((65 <=? nat_of_ascii c)%nat && (nat_of_ascii c <=? 90)%nat) eqn:E; auto.
  apply andb_true_iff in E. destruct E as [_ E]. apply Nat.leb_le in E. apply nat_ascii_embedding. lia.
Qed.
Lemma nat_ascii_inj c d : nat_of_ascii c = nat_of_ascii d -> c = d.
Proof. intros H. rewrite <- (ascii_nat_embedding c), <- (ascii_nat_embedding d). now rewrite H. Qed.

Lemma same_letter_low c d : same_letter c d <-> low_ascii c = low_ascii d.
Proof.
  split.
  - intros [-> | (k & Hk & H)]; auto. apply nat_ascii_inj. rewrite !low_nat.
    destruct (Nat.leb_spec 65 (nat_of_ascii c)), (Nat.leb_spec (nat_of_ascii c) 90), (Nat.leb_spec 65 (nat_of_ascii d)), (Nat.leb_spec (nat_of_ascii d) 90); cbn [andb]; lia.
  - intros H. apply (f_equal nat_of_ascii) in H. rewrite !low_nat in H. unfold same_letter.
    destruct (Nat.leb_spec 65 (nat_of_ascii c)), (Nat.leb_spec (nat_of_ascii c) 90), (Nat.leb_spec 65 (nat_of_ascii d)), (Nat.leb_spec (nat_of_ascii d) 90); cbn [andb] in H;
      try (left; apply nat_ascii_inj; lia).
    all: first [right; exists (nat_of_ascii c - 65)%nat; lia | right; exists (nat_of_ascii d - 65)%nat; lia].
Qed.

Lemma same_name_low s : forall t, same_name s t <-> to_lower s = to_lower t.
Proof.
  induction s as [|c s IH]; intros [|d t]; cbn [same_name to_lower map_string]; try (split; intros H; now inversion H).
  rewrite IH, same_letter_low. unfold to_lower. split; [intros [-> ->]; auto|intros H; inversion H; auto].
Qed.

Lemma one_of_iff s l : one_of s l = true <-> In s l.
Proof. unfold one_of. rewrite existsb_exists. split; [intros (x & H & E); apply String.eqb_eq in E; now subst|intros H; exists s; split; auto; apply String.eqb_refl]. Qed.

Lemma from_string_iff s r : radius_from_string s = (r, true) <-> (0 <= r <= 4)%Z /\ exists t, In t (names_of r) /\ same_name s t.
Proof.
  assert (K : forall t r, (0 <= r <= 4)%Z -> In t (names_of r) -> to_lower t = t).
  { intros t q Hq Ht. assert (E : (q = 0 \/ q = 1 \/ q = 2 \/ q = 3 \/ q = 4)%Z) by lia.
    destruct E as [-> | [-> | [-> | [-> | ->]]]]; cbn in Ht; (destruct Ht as [<- | [<- | []]]; reflexivity). }
  transitivity ((0 <= r <= 4)%Z /\ In (to_lower s) (names_of r)).
  - unfold radius_from_string. split.
    + repeat match goal with |- context [one_of ?a ?b] => let E := fresh in destruct (one_of a b) eqn:E end;
        intros Q; inversion Q; subst; unfold R200m, RVirial, R200c, R500c, R2500c in *; (split; [lia|]); rewrite one_of_iff in *; auto.
    + intros [Hr Hn]. assert (E : (r = 0 \/ r = 1 \/ r = 2 \/ r = 3 \/ r = 4)%Z) by lia.
      destruct E as [-> | [-> | [-> | [-> | ->]]]]; cbn in Hn; (destruct Hn as [<- | [<- | []]]; reflexivity).
  - split; intros [A B]; (split; [auto|]).
    + exists (to_lower s). split; auto. apply same_name_low. symmetry. eauto.
    + destruct B as (t & Ht & E). apply same_name_low in E. rewrite E, (K t r); auto.
Qed.

Lemma string_ok r : (0 <= r <= 4)%Z -> exists s, radius_string r = Ok s /\ exists t, In t (names_of r) /\ same_name s t.
Proof.
  intros Hr. assert (E : (r = 0 \/ r = 1 \/ r = 2 \/ r = 3 \/ r = 4)%Z) by lia.
  destruct E as [-> | [-> | [-> | [-> | ->]]]]; eexists; (split; [reflexivity|]); eexists; (split; [right; left; reflexivity|]); apply same_name_low; reflexivity.
Qed.

Lemma name_trans s t u : same_name s t -> same_name t u -> same_name s u.
Proof. rewrite !same_name_low. congruence. Qed.

Theorem names_thm :
  (forall r, (0 <= r <= 4)%Z -> exists s, radius_string r = Ok s /\ forall s', same_name s' s -> radius_from_string s' = (r, true)) /\
  (forall r, ~ (0 <= r <= 4)%Z -> radius_string r = Panic) /\
  (forall s r, radius_from_string s = (r, true) <-> (0 <= r <= 4)%Z /\ exists t, In t (names_of r) /\ same_name s t) /\
  (forall s, snd (radius_from_string s) = false -> fst (radius_from_string s) = RVirial).
Proof.
  split; [|split; [|split]].
  - intros r Hr. destruct (string_ok r Hr) as (s & E & t & Ht & Hs). exists s. split; auto. intros s' H'. apply from_string_iff. split; auto.
    exists t. split; auto. eapply name_trans; eauto.
  - intros r Hr. unfold radius_string, R200m, R200c, R500c, R2500c, RVirial.
    repeat match goal with |- context [(?a =? ?b)%Z] => replace (a =? b)%Z with false by lia end. reflexivity.
  - exact from_string_iff.
  - intros s. unfold radius_from_string. repeat match goal with |- context [one_of ?a ?b] => destruct (one_of a b) end; cbn; auto; discriminate.
Qed.

(** ** Densities *)
Definition real_consts : cosmo_consts R := CC PI gravity megaparsec solar_mass (177653 / 1000).

Lemma pow3 x : 0 < x -> Rpower x 3 = x ^ 3.
Proof. intros H. rewrite <- Rpower_pow by auto. f_equal. cbn. lra. Qed.

Lemma megaparsec_pos : 0 < megaparsec. Proof. unfold megaparsec. lra. Qed.
Lemma gravity_pos : 0 < gravity. Proof. unfold gravity. lra. Qed.
Lemma solar_pos : 0 < solar_mass. Proof. unfold solar_mass. lra. Qed.

Lemma critical_pos : 0 < critical_today.
Proof.
  unfold critical_today. pose proof megaparsec_pos. pose proof gravity_pos. pose proof solar_pos. pose proof PI_RGT_0.
  apply Rdiv_lt_0_compat; auto. apply Rmult_lt_0_compat; [|now apply pow_lt]. apply Rdiv_lt_0_compat.
  - apply Rmult_lt_0_compat; [lra|]. apply pow_lt. apply Rdiv_lt_0_compat; lra.
  - apply Rmult_lt_0_compat; auto. lra.
Qed.

Lemma rho_critical_eq H0 om ol z : H0 <> 0 -> -1 < z -> 0 <= expansion2 om ol z ->
  rho_critical sqrt Rpower real_consts H0 om ol z = critical_today * expansion2 om ol z.
Proof.
  intros HH Hz He. unfold rho_critical, rho_critical_mks, hubble_frac; rn. unfold real_consts. cbn [cc_pi cc_G cc_Mpc cc_MSun].
  pose proof megaparsec_pos. pose proof gravity_pos. pose proof solar_pos. pose proof PI_RGT_0.
  rewrite !pow3 by lra. fold (expansion2 om ol z). set (e := expansion2 om ol z) in *. unfold critical_today.
  set (M := megaparsec) in *. set (G := gravity) in *. set (S := solar_mass) in *. set (P := PI) in *.
  rewrite <- (sqrt_sqrt e) at 3 by auto. set (q := sqrt e). field. repeat split; lra.
Qed.

Lemma rho_average_eq H0 om ol z : H0 <> 0 -> -1 < z -> 0 <= expansion2 om ol 0 ->
  rho_average sqrt Rpower real_consts H0 om ol z = critical_today * expansion2 om ol 0 * om * (1 + z) ^ 3.
Proof. intros HH Hz He. unfold rho_average; rn. rewrite rho_critical_eq by (auto; lra). now rewrite pow3 by lra. Qed.

Lemma cube_mono x y : 0 <= x -> x < y -> x ^ 3 < y ^ 3.
Proof.
  intros Hx H. assert (A : x * x <= y * y) by (apply Rmult_le_compat; lra).
  assert (B : x * (x * x) <= x * (y * y)) by (apply Rmult_le_compat_l; lra).
  assert (C : x * (y * y) < y * (y * y)) by (apply Rmult_lt_compat_r; [apply Rmult_lt_0_compat; lra|auto]).
  replace (x ^ 3) with (x * (x * x)) by ring. replace (y ^ 3) with (y * (y * y)) by ring. lra.
Qed.

Theorem density_thm : forall H0 H0' om ol z, H0 <> 0 -> H0' <> 0 -> 0 <= om -> 0 <= ol -> -1 < z ->
  rho_critical sqrt Rpower real_consts H0 om ol z = critical_today * expansion2 om ol z /\
  rho_critical sqrt Rpower real_consts H0 om ol z = rho_critical sqrt Rpower real_consts H0' om ol z /\
  rho_average sqrt Rpower real_consts H0 om ol 0 = om * rho_critical sqrt Rpower real_consts H0 om ol 0 /\
  (om + ol = 1 -> rho_average sqrt Rpower real_consts H0 om ol z = om * (1 + z) ^ 3 * critical_today) /\
  (forall z', z < z' -> rho_critical sqrt Rpower real_consts H0 om ol z <= rho_critical sqrt Rpower real_consts H0 om ol z' /\
     rho_average sqrt Rpower real_consts H0 om ol z <= rho_average sqrt Rpower real_consts H0 om ol z') /\
  (0 < om -> forall z', z < z' -> rho_critical sqrt Rpower real_consts H0 om ol z < rho_critical sqrt Rpower real_consts H0 om ol z' /\
     rho_average sqrt Rpower real_consts H0 om ol z < rho_average sqrt Rpower real_consts H0 om ol z').
Proof.
  intros H0 H0' om ol z A A' B C Hz. pose proof critical_pos as CP.
  assert (E : forall z, -1 < z -> 0 <= expansion2 om ol z).
  { intros y Hy. unfold expansion2. assert (0 <= (1 + y) ^ 3) by (apply pow_le; lra). pose proof (Rmult_le_pos _ _ B H). lra. }
  assert (M : forall z', z < z' -> om * (1 + z) ^ 3 <= om * (1 + z') ^ 3 /\ (0 < om -> om * (1 + z) ^ 3 < om * (1 + z') ^ 3)).
  { intros z' Hz'. pose proof (cube_mono (1 + z) (1 + z') ltac:(lra) ltac:(lra)) as K. split; [apply Rmult_le_compat_l; lra|]. intros P. now apply Rmult_lt_compat_l. }
  split; [|split; [|split; [|split; [|split]]]].
  - apply rho_critical_eq; auto.
  - rewrite !rho_critical_eq by auto. reflexivity.
  - rewrite rho_average_eq, rho_critical_eq by (auto; try lra; apply E; lra). ring.
  - intros F. rewrite rho_average_eq by (auto; apply E; lra). unfold expansion2. replace (om * (1 + 0) ^ 3 + ol) with 1 by (replace ((1 + 0) ^ 3) with 1 by ring; lra). ring.
  - intros z' Hz'. destruct (M z' Hz') as [M1 _]. rewrite !rho_critical_eq by (auto; try lra; apply E; lra). rewrite !rho_average_eq by (auto; try lra; apply E; lra). split.
    + apply Rmult_le_compat_l; [lra|]. unfold expansion2. lra.
    + rewrite !Rmult_assoc. apply Rmult_le_compat_l; [lra|]. apply Rmult_le_compat_l; [apply E; lra|]. exact M1.
  - intros P z' Hz'. destruct (M z' Hz') as [_ M2]. specialize (M2 P). rewrite !rho_critical_eq by (auto; try lra; apply E; lra). rewrite !rho_average_eq by (auto; try lra; apply E; lra). split.
    + apply Rmult_lt_compat_l; [lra|]. unfold expansion2. lra.
    + rewrite !Rmult_assoc. apply Rmult_lt_compat_l; [lra|]. apply Rmult_lt_compat_l; [|exact M2].
      unfold expansion2. replace ((1 + 0) ^ 3) with 1 by ring. lra.
Qed.

(** ** Masses and radii *)
Lemma over_eq r (c : cosmo_header R) : (0 <= r <= 4)%Z -> 0 < ch_omegaM c -> 0 <= ch_omegaL c -> -1 < ch_z c -> ch_h100 c <> 0 ->
  overdensity sqrt Rpower real_consts r c = contrast r * reference r (ch_omegaM c) (ch_omegaL c) (ch_z c) /\
  0 < contrast r * reference r (ch_omegaM c) (ch_omegaL c) (ch_z c).
Proof.
  intros Hr Ho Hl Hz Hh. destruct c as [z om ol h]. cbn [ch_z ch_omegaM ch_omegaL ch_h100] in *.
  assert (E : forall z, -1 < z -> 0 < expansion2 om ol z).
  { intros y Hy. unfold expansion2. assert (0 < (1 + y) ^ 3) by (apply pow_lt; lra). pose proof (Rmult_lt_0_compat _ _ Ho H). lra. }
  assert (HH : h * 100 <> 0) by lra. pose proof critical_pos as CP.
  assert (P1 : 0 < critical_today * expansion2 om ol z) by (apply Rmult_lt_0_compat; auto).
  assert (P2 : 0 < critical_today * expansion2 om ol 0 * om * (1 + z) ^ 3).
  { apply Rmult_lt_0_compat; [|apply pow_lt; lra]. apply Rmult_lt_0_compat; auto. apply Rmult_lt_0_compat; auto. apply E. lra. }
  assert (Q : (r = 0 \/ r = 1 \/ r = 2 \/ r = 3 \/ r = 4)%Z) by lia.
  unfold overdensity. cbn [ch_z ch_omegaM ch_omegaL ch_h100]. rn.
  rewrite rho_critical_eq by (auto; apply Rlt_le; auto). rewrite rho_average_eq by (auto; apply Rlt_le; apply E; lra).
  destruct Q as [-> | [-> | [-> | [-> | ->]]]]; cbn [RVirial R200c R200m R500c R2500c Z.eqb Pos.eqb contrast reference real_consts cc_vir]; (split; [reflexivity|]); apply Rmult_lt_0_compat; auto; lra.
Qed.

Section Mass.
Variables (r : Z) (c : cosmo_header R).
Hypothesis Hr : (0 <= r <= 4)%Z.
Hypothesis Ho : 0 < ch_omegaM c.
Hypothesis Hl : 0 <= ch_omegaL c.
Hypothesis Hz : -1 < ch_z c.
Hypothesis Hh : ch_h100 c <> 0.
Let K := contrast r * reference r (ch_omegaM c) (ch_omegaL c) (ch_z c).
Let f := K * 4 * PI / 3.

Lemma f_pos : 0 < f.
Proof. unfold f. pose proof PI_RGT_0. destruct (over_eq r c Hr Ho Hl Hz Hh) as [_ P]. fold K in P. apply Rdiv_lt_0_compat; [|lra]. apply Rmult_lt_0_compat; auto. lra. Qed.
Lemma factor_eq : sphere_factor sqrt Rpower real_consts r c = f.
Proof. unfold sphere_factor; rn. now rewrite (proj1 (over_eq r c Hr Ho Hl Hz Hh)). Qed.

Definition rad1 (m : R) : R := Rpower (m / f) (1 / 3) / (1 / (1 + ch_z c)).
Definition mass1 (x : R) : R := f * (x * (1 / (1 + ch_z c)) * (x * (1 / (1 + ch_z c))) * (x * (1 / (1 + ch_z c)))).

Lemma mass1_eq x : mass1 x = sphere_mass r (ch_omegaM c) (ch_omegaL c) (ch_z c) x.
Proof. unfold mass1, sphere_mass, f. fold K. field. lra. Qed.
Lemma mass1_pos x : 0 < x -> 0 < mass1 x.
Proof.
  intros H. pose proof f_pos. assert (0 < x * (1 / (1 + ch_z c))) by (apply Rmult_lt_0_compat; auto; apply Rdiv_lt_0_compat; lra).
  unfold mass1. apply Rmult_lt_0_compat; auto. apply Rmult_lt_0_compat; auto. now apply Rmult_lt_0_compat.
Qed.
Lemma rad1_pos m : 0 < rad1 m.
Proof. unfold rad1. apply Rdiv_lt_0_compat; [apply exp_pos|apply Rdiv_lt_0_compat; lra]. Qed.
Lemma mass_rad m : 0 < m -> mass1 (rad1 m) = m.
Proof.
  intros Hm. pose proof f_pos. assert (P : 0 < m / f) by now apply Rdiv_lt_0_compat.
  unfold mass1, rad1. set (q := Rpower (m / f) (1 / 3)).
  assert (E : q * q * q = m / f).
  { unfold q. rewrite <- !Rpower_plus. replace (1 / 3 + 1 / 3 + 1 / 3) with 1 by lra. now apply Rpower_1. }
  replace (q / (1 / (1 + ch_z c)) * (1 / (1 + ch_z c))) with q by (field; lra). rewrite E. field. lra.
Qed.
Lemma rad_mass x : 0 < x -> rad1 (mass1 x) = x.
Proof.
  intros Hx. pose proof f_pos. unfold rad1, mass1. set (y := x * (1 / (1 + ch_z c))).
  assert (Py : 0 < y) by (unfold y; apply Rmult_lt_0_compat; auto; apply Rdiv_lt_0_compat; lra).
  replace (f * (y * y * y) / f) with (y ^ 3) by (field; lra). rewrite <- Rpower_pow by auto. rewrite Rpower_mult.
  replace (INR 3 * (1 / 3)) with 1 by (cbn; lra). rewrite Rpower_1 by auto. unfold y. field. lra.
Qed.
Lemma mass1_inc x y : 0 < x -> x < y -> mass1 x < mass1 y.
Proof.
  intros Hx H. pose proof f_pos. assert (P : 0 < 1 / (1 + ch_z c)) by (apply Rdiv_lt_0_compat; lra). unfold mass1.
  apply Rmult_lt_compat_l; auto.
  assert (A : x * (1 / (1 + ch_z c)) < y * (1 / (1 + ch_z c))) by now apply Rmult_lt_compat_r.
  assert (B : 0 < x * (1 / (1 + ch_z c))) by now apply Rmult_lt_0_compat.
  pose proof (cube_mono _ _ (Rlt_le _ _ B) A) as C. replace (_ * _ * _) with ((x * (1 / (1 + ch_z c))) ^ 3) by ring. replace (_ * _ * (y * _)) with ((y * (1 / (1 + ch_z c))) ^ 3) by ring. exact C.
Qed.

Lemma map_loop (g : R -> R) (xs out : list R) (body : Z -> list R -> res (list R)) : zlen out = zlen xs ->
  (forall i o, (0 <= i < zlen xs)%Z -> body i o = set o i (g (zn 0 xs i))) -> for_ 0 (zlen xs) body out = Ok (map g xs).
Proof.
  intros HL HB. assert (W : wp (for_ 0 (zlen xs) body out) (fun o => zlen o = zlen xs /\ forall j, (0 <= j < zlen xs)%Z -> zn 0 o j = g (zn 0 xs j))).
  { apply (for_inv (fun t o => zlen o = zlen xs /\ forall j, (0 <= j < t)%Z -> zn 0 o j = g (zn 0 xs j))).
    - apply zlen_nonneg. - split; auto. intros; lia.
    - intros i o Hi [A B]. rewrite HB by auto. rewrite set_ok by lia. cbn [wp]. split; [now rewrite zlen_upd|].
      intros j Hj. rewrite zn_upd by lia. destruct (Z.eqb_spec j i) as [-> | ]; auto. apply B. lia. }
  apply (proj1 (wp_ok _ _)) in W. destruct W as (o & -> & A & B). f_equal. apply (list_ext 0); [now rewrite zlen_map|].
  intros i Hi. rewrite A in Hi. rewrite B by auto. now rewrite (zn_map g 0 0) by lia.
Qed.

Lemma radius_of_eq ms out : zlen out = zlen ms -> radius_of sqrt Rpower real_consts r c ms out = Ok (map rad1 ms).
Proof.
  intros HL. unfold radius_of. apply map_loop; auto. intros i o Hi. rewrite (get_ok 0) by auto. cbn [bind]. rewrite factor_eq. reflexivity.
Qed.
Lemma mass_of_eq rs out : zlen out = zlen rs -> mass_of sqrt Rpower real_consts r c rs out = Ok (map mass1 rs).
Proof.
  intros HL. unfold mass_of. apply map_loop; auto. intros i o Hi. rewrite (get_ok 0) by auto. cbn [bind]. rewrite factor_eq. reflexivity.
Qed.

Lemma map_inv (g h : R -> R) l : (forall x, 0 < x -> h (g x) = x) -> Forall (fun x => 0 < x) l -> map h (map g l) = l.
Proof. intros H F. rewrite map_map. induction F as [|x l P F IH]; cbn; auto. now rewrite H, IH. Qed.

Theorem mass_radius_thm : forall l out out', zlen out = zlen l -> zlen out' = zlen l -> Forall (fun x => 0 < x) l ->
  (exists rs, radius_of sqrt Rpower real_consts r c l out = Ok rs /\ Forall (fun x => 0 < x) rs /\
     mass_of sqrt Rpower real_consts r c rs out' = Ok l /\ Forall2 (fun m x => m = sphere_mass r (ch_omegaM c) (ch_omegaL c) (ch_z c) x) l rs /\
     forall i j, (0 <= i < zlen l)%Z -> (0 <= j < zlen l)%Z -> zn 0 l i < zn 0 l j -> zn 0 rs i < zn 0 rs j) /\
  (exists ms, mass_of sqrt Rpower real_consts r c l out = Ok ms /\ Forall (fun x => 0 < x) ms /\
     radius_of sqrt Rpower real_consts r c ms out' = Ok l /\ Forall2 (fun x m => m = sphere_mass r (ch_omegaM c) (ch_omegaL c) (ch_z c) x) l ms /\
     forall i j, (0 <= i < zlen l)%Z -> (0 <= j < zlen l)%Z -> zn 0 l i < zn 0 l j -> zn 0 ms i < zn 0 ms j).
Proof.
  intros l out out' L1 L2 F. assert (Fi : forall i, (0 <= i < zlen l)%Z -> 0 < zn 0 l i).
  { intros i Hi. rewrite Forall_forall in F. apply F. now apply zn_In. }
  split.
  - exists (map rad1 l). split; [now apply radius_of_eq|]. split; [apply Forall_forall; intros x Hx; apply in_map_iff in Hx; destruct Hx as (m & <- & _); apply rad1_pos|].
    split; [rewrite mass_of_eq by (now rewrite zlen_map); f_equal; apply map_inv; auto using mass_rad|]. split.
    + clear - F Hr Ho Hl Hz Hh. induction F; cbn; constructor; auto. rewrite <- mass1_eq. now rewrite mass_rad.
    + intros i j Hi Hj Hij. rewrite !(zn_map rad1 0 0) by auto. destruct (Rlt_le_dec (rad1 (zn 0 l i)) (rad1 (zn 0 l j))) as [|D]; auto. exfalso.
      assert (mass1 (rad1 (zn 0 l j)) <= mass1 (rad1 (zn 0 l i))).
      { destruct D as [D|D]; [apply Rlt_le, mass1_inc; auto using rad1_pos|rewrite D; lra]. }
      rewrite !mass_rad in H by auto. lra.
  - exists (map mass1 l). split; [now apply mass_of_eq|]. split; [apply Forall_forall; intros x Hx; apply in_map_iff in Hx; destruct Hx as (m & <- & Hm); apply mass1_pos; rewrite Forall_forall in F; auto|].
    split; [rewrite radius_of_eq by (now rewrite zlen_map); f_equal; apply map_inv; auto using rad_mass|]. split.
    + clear - F Hr Ho Hl Hz Hh. induction F; cbn; constructor; auto. apply mass1_eq.
    + intros i j Hi Hj Hij. rewrite !(zn_map mass1 0 0) by auto. apply mass1_inc; auto.
Qed.
End Mass.
