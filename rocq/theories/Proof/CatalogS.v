(** Requests the catalogue readers cannot serve. *)
From Coq Require Import ZArith Reals List Lia Bool.
From Coq Require Import ZifyBool ZifyNat.
From Verif Require Import Base.Res Base.ResFacts Base.Num Base.Bytes Model.SheetIO Model.Cosmo Model.Catalog Spec.Files Spec.Catalogs Proof.BytesP Proof.CatalogT.
Import ListNotations.
Open Scope Z_scope.

Lemma radius_types t : (0 <= t <= 4 -> rockstar_column t = Ok (table_column t) /\ rockstar_mass t = Ok (negb (t =? 0))) /\
  (~ 0 <= t <= 4 -> rockstar_column t = Panic /\ rockstar_mass t = Panic /\
     forall {F} {NF : Num F} fsqrt fpow k srt (c : cosmo_header F) table, read_rockstar fsqrt fpow k srt t c table = Panic).
Proof.
  split; intros H.
  - assert (K : t = 0 \/ t = 1 \/ t = 2 \/ t = 3 \/ t = 4) by lia.
    destruct K as [-> | [-> | [-> | [-> | ->]]]]; split; reflexivity.
  - assert (C : rockstar_column t = Panic).
    { unfold rockstar_column, RVirial, R200c, R200m, R500c, R2500c.
      replace (t =? 0) with false by lia. replace (t =? 1) with false by lia. replace (t =? 2) with false by lia.
      replace (t =? 3) with false by lia. replace (t =? 4) with false by lia. reflexivity. }
    split; [exact C|]. split.
    + unfold rockstar_mass, RVirial, R200c, R200m, R500c, R2500c.
      replace (t =? 0) with false by lia. replace (t =? 1) with false by lia. replace (t =? 2) with false by lia.
      replace (t =? 3) with false by lia. replace (t =? 4) with false by lia. reflexivity.
    + intros. unfold read_rockstar. rewrite C. reflexivity.
Qed.

Lemma count_read n rest : int64 n ->
  exists b, read_full (put Little 8 n ++ rest) 0 8 = Some b /\ signed 64 (word Little b) = n.
Proof.
  intros H. exists (put Little 8 n). split.
  - exact (read_full_app [] (put Little 8 n) rest 0 8 eq_refl (put_length _ _ _)).
  - rewrite word_put. change (256 ^ Z.of_nat 8) with (2 ^ 64). unfold int64 in H. unfold signed. change (2 ^ (64 - 1)) with (2 ^ 63).
    destruct (Z_lt_le_dec n 0) as [A|A].
    + rewrite <- (Z_mod_plus_full n 1 (2 ^ 64)), Z.mod_small by lia. replace (n + 1 * 2 ^ 64 <? 2 ^ 63) with false by lia. lia.
    + rewrite Z.mod_small by lia. replace (n <? 2 ^ 63) with true by lia. reflexivity.
Qed.

Lemma cut_file file cs : (length file < 8)%nat -> binary_col_getter file cs = Ok Err.
Proof. intros H. unfold binary_col_getter. rewrite read_full_short; [reflexivity|lia|lia]. Qed.

Lemma negative_count n rest cs : int64 n -> n < 0 ->
  binary_col_getter (put Little 8 n ++ rest) cs = match cs with [] => Ok (Good []) | _ => Panic end.
Proof.
  intros H N. unfold binary_col_getter. destruct (count_read n rest H) as (b & -> & ->). replace (n <? 0) with true by lia.
  destruct cs as [|c cs]; [reflexivity|]. rewrite zlen_cons. pose proof (zlen_nonneg cs). replace (zlen cs + 1 =? 0) with false by lia.
  destruct (1 + zlen cs =? 0) eqn:E; [lia|reflexivity].
Qed.

Lemma missing_column n rest cs : 1 <= n -> int64 n -> Forall (fun c => 0 <= c <= valNum) cs ->
  Exists (fun c => Z.of_nat (length rest) < 8 * n * (c + 1)) cs ->
  binary_col_getter (put Little 8 n ++ rest) cs = Ok Err.
Proof.
  intros H I F X. unfold binary_col_getter. destruct (count_read n rest I) as (b & -> & ->). replace (n <? 0) with false by lia. cbn [andb].
  set (file := put Little 8 n ++ rest). assert (L : length file = (8 + length rest)%nat) by (unfold file; now rewrite app_length, put_length).
  clearbody file. induction F as [|c cs Hc F IH]; [inversion X|]. cbn [read_cols].
  unfold read_col. replace (c >? valNum) with false by lia. assert (0 <= n * 8 * c) by nia. replace (8 + n * 8 * c <? 0) with false by lia.
  destruct (Z_lt_le_dec (Z.of_nat (length rest)) (8 * n * (c + 1))) as [A|A].
  - rewrite read_full_short; [reflexivity| |lia]. rewrite L. nia.
  - destruct (read_full file (Z.to_nat (8 + n * 8 * c)) (8 * Z.to_nat n)); [|reflexivity]. cbn [bind].
    assert (XS : Exists (fun c => Z.of_nat (length rest) < 8 * n * (c + 1)) cs) by (inversion X; [lia|assumption]).
    rewrite (IH XS). reflexivity.
Qed.

Theorem damaged file n rest cs :
  ((length file < 8)%nat -> binary_col_getter file cs = Ok Err) /\
  (int64 n -> let file := put Little 8 n ++ rest in
    (n < 0 -> cs <> [] -> binary_col_getter file cs = Panic) /\
    binary_col_getter file [] = Ok (Good []) /\
    (1 <= n -> 8 * n * (valNum + 1) < 2 ^ 63 -> Forall (fun c => 0 <= c <= valNum) cs ->
       Exists (fun c => Z.of_nat (length rest) < 8 * n * (c + 1)) cs -> binary_col_getter file cs = Ok Err)).
Proof.
  split; [apply cut_file|]. intros I f. unfold f. clear f. split; [|split].
  - intros N E. rewrite negative_count by auto. destruct cs; [congruence|reflexivity].
  - unfold binary_col_getter. destruct (count_read n rest I) as (b & -> & ->). change (zlen (@nil Z) =? 0) with true.
    rewrite andb_false_r. reflexivity.
  - intros A _ B C. now apply missing_column.
Qed.
