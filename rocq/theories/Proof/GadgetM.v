(** Proofs about lGadget2Main over all directories. *)
From Coq Require Import ZArith String List Bool Lia ZifyBool ZifyNat.
From Verif Require Import Base.Res Base.ResFacts Base.Num Base.Bytes Model.Geom Model.Main Model.Gadget Spec.Work Spec.GadgetRuns Proof.ReadHaloM.
Import ListNotations.
Open Scope Z_scope.

Section Collect.
Context {A : Type}.
Variable f : Z -> res A.

Lemma for_n_collect n : forall lo acc out,
  for_n n lo (fun i out => bind (f i) (fun d => Ok (out ++ [d]))) acc = Ok out <->
  exists l, out = acc ++ l /\ Forall2 (fun i d => f i = Ok d) (map (fun k => lo + Z.of_nat k) (seq 0 n)) l.
Proof.
  induction n as [|n IH]; intros lo acc out; cbn [for_n seq map].
  - split; [intros [= <-]; exists []; rewrite app_nil_r; auto|]. intros (l & -> & H). inversion H. now rewrite app_nil_r.
  - replace (lo + Z.of_nat 0) with lo by lia.
    assert (E : map (fun k => lo + Z.of_nat k) (seq 1 n) = map (fun k => (lo + 1) + Z.of_nat k) (seq 0 n)).
    { rewrite <- seq_shift, map_map. apply map_ext. intros k. lia. }
    rewrite E. destruct (f lo) as [d| | |] eqn:Ef; cbn [bind].
    + rewrite IH. split.
      * intros (l & -> & H). exists (d :: l). rewrite <- app_assoc. split; [reflexivity|]. constructor; auto.
      * intros (l & -> & H). inversion H as [|? d' ? l' Hd Hl]; subst. rewrite Ef in Hd. injection Hd as ->. exists l'. rewrite <- app_assoc. auto.
    + split; [discriminate|]. intros (l & _ & H). inversion H. congruence.
    + split; [discriminate|]. intros (l & _ & H). inversion H. congruence.
    + split; [discriminate|]. intros (l & _ & H). inversion H. congruence.
Qed.
Lemma for_collect lo hi out :
  for_ lo hi (fun i out => bind (f i) (fun d => Ok (out ++ [d]))) [] = Ok out <->
  Forall2 (fun i d => f i = Ok d) (map (fun j => lo + j) (zseq (hi - lo))) out.
Proof.
  unfold for_, zseq. rewrite map_map, for_n_collect. split; [intros (l & -> & H); exact H|]. intros H. exists out. auto.
Qed.
End Collect.
Lemma Forall2_map_l {A B C} (g : A -> B) (P : B -> C -> Prop) l m : Forall2 P (map g l) m <-> Forall2 (fun a c => P (g a) c) l m.
Proof.
  split.
  - revert m. induction l as [|a l IH]; intros m H; inversion H; subst; constructor; auto.
  - induction 1; cbn; constructor; auto.
Qed.
Lemma Forall2_iff {A B} (P Q : A -> B -> Prop) l m : (forall a b, P a b <-> Q a b) -> Forall2 P l m <-> Forall2 Q l m.
Proof. intros H. split; induction 1; constructor; auto; now apply H. Qed.

Section Main.
Context {D F : Type} {ND : Num D} {NF : Num F} (up : F -> D) (down : D -> F).
Variables (sys : order) (f32_of : Z -> F) (f64_of : Z -> D) (narrow : Z -> Z) (fsqrt : D -> D) (pow : D -> D -> D).
Variables (sprintf : string -> Z -> string) (listing : string -> option (list (list Z))) (con : convert_config D).
Notation dir := (convert_dir up down sys f32_of f64_of narrow fsqrt pow con).
Notation snap := (convert_snapshot up down sys f32_of f64_of narrow fsqrt pow sprintf listing con).

Definition one (d : string * string) : res (string * list (string * segment F)) :=
  match listing (fst d) with None => Fatal | Some files => bind (dir files) (fun o => Ok (snd d, o)) end.
Lemma one_spec d out : one d = Ok out <-> converted dir listing d out.
Proof.
  unfold one, converted. destruct out as [o l]. cbn [fst snd]. destruct (listing (fst d)) as [files|].
  - split.
    + intros H. apply bind_ok in H. destruct H as (s & H & [= -> <-]). split; [reflexivity|]. exists files. auto.
    + intros (-> & files' & [= <-] & ->). reflexivity.
  - split; [discriminate|]. intros (_ & ? & H & _). discriminate.
Qed.

Lemma body_ext lo hi (pair : Z -> string * string) acc :
  for_ lo hi (fun i out => let '(input, output) := pair i in
    match listing input with None => Fatal | Some files => bind (dir files) (fun d => Ok (out ++ [(output, d)])) end) acc =
  for_ lo hi (fun i out => bind (one (pair i)) (fun d => Ok (out ++ [d]))) acc.
Proof.
  apply for_ext. intros i out _. unfold one. destruct (pair i) as [input output]. cbn [fst snd].
  destruct (listing input) as [files|]; [|reflexivity]. destruct (dir files); reflexivity.
Qed.
Lemma main_spec out :
  lgadget2_main up down sys f32_of f64_of narrow fsqrt pow sprintf listing con = Ok out <->
  Forall2 (converted dir listing) (directories sprintf con) out.
Proof.
  unfold lgadget2_main, directories, given. rewrite <- (Forall2_iff _ _ _ _ one_spec).
  destruct (String.eqb_spec (cv_itInput con) "") as [E|E]; cbn [negb].
  - rewrite (body_ext 0 (0 + 1) (fun _ => (cv_input con, cv_output con))), for_collect. rewrite Forall2_map_l. cbn [Z.add Z.sub zseq]. 
    cbv [zseq Z.to_nat Pos.to_nat Pos.iter_op seq map Z.sub Z.add Z.opp]. split; intros H; inversion_clear H as [|? ? ? ? H1 H2]; inversion H2; repeat constructor; exact H1.
  - rewrite (body_ext _ _ (fun i => (sprintf (cv_itInput con) i, sprintf (cv_itOutput con) i))), for_collect, !Forall2_map_l.
    replace (cv_end con + 1 - cv_start con) with (cv_end con - cv_start con + 1) by lia. reflexivity.
Qed.

Theorem snapshot_spec out : snap = Ok out <-> accepted con /\ Forall2 (converted dir listing) (directories sprintf con) out.
Proof.
  rewrite <- main_spec. unfold convert_snapshot, accepted, given.
  destruct (String.eqb_spec (cv_itInput con) ""), (String.eqb_spec (cv_itOutput con) ""), (String.eqb_spec (cv_input con) ""), (String.eqb_spec (cv_output con) "");
    cbn [negb andb Bool.eqb]; destruct (Z.gtb_spec (cv_cells con) 0); cbn [negb];
    destruct (Z.eqb_spec (cv_idSize con) 64), (Z.eqb_spec (cv_idSize con) 32); cbn [negb orb];
    destruct (String.eqb_spec (cv_format con) "LGadget-2"), (String.eqb_spec (cv_format con) "Arepo-type-2"); cbn [orb];
    (split; [intros HO; first [discriminate HO|split; [|exact HO]; intuition (auto; lia)]
            |intros (HA & HO); first [exact HO|exfalso; clear HO; decompose [and or] HA; clear HA; first [congruence|lia]]]).
Qed.

(** The default of IterationEnd is never checked. *)
Theorem snapshot_nothing : accepted con -> (cv_itInput con <> "")%string -> cv_start con = cv_start (default_convert (ND := ND)) ->
  cv_end con = cv_end (default_convert (ND := ND)) -> snap = Ok [].
Proof.
  intros HA HI HS HE. apply snapshot_spec. split; [exact HA|]. unfold directories. destruct (String.eqb_spec (cv_itInput con) ""); [contradiction|].
  rewrite HS, HE. constructor.
Qed.
End Main.
