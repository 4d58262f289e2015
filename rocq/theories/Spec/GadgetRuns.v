(** Which directories a conversion reads and writes. *)
From Coq Require Import ZArith String List Bool.
From Verif Require Import Base.Res Base.Num Model.Geom Model.Main Model.Gadget Spec.Work.
Import ListNotations.
Open Scope Z_scope.

Section Runs.
Context {D F : Type} {ND : Num D} {NF : Num F}.

(** The configuration names inputs and outputs, either iterated or not. *)
Definition accepted (con : convert_config D) : Prop :=
  ((cv_itInput con <> "" /\ cv_itOutput con <> "") \/
   (cv_itInput con = "" /\ cv_itOutput con = "" /\ cv_input con <> "" /\ cv_output con <> ""))%string /\
  0 < cv_cells con /\ (cv_idSize con = 64 \/ cv_idSize con = 32) /\
  (cv_format con = "LGadget-2" \/ cv_format con = "Arepo-type-2")%string.

(** The pairs of an input and an output directory, in order. *)
Definition directories (sprintf : string -> Z -> string) (con : convert_config D) : list (string * string) :=
  if String.eqb (cv_itInput con) "" then [(cv_input con, cv_output con)]
  else map (fun j => let i := cv_start con + j in (sprintf (cv_itInput con) i, sprintf (cv_itOutput con) i))
           (zseq (cv_end con - cv_start con + 1)).

(** The first directory holds the files of [segments], and they go to the second. *)
Definition converted (convert : list (list Z) -> res (list (string * segment F))) (listing : string -> option (list (list Z)))
    (d : string * string) (out : string * list (string * segment F)) : Prop :=
  fst out = snd d /\ exists files, listing (fst d) = Some files /\ convert files = Ok (snd out).
End Runs.
