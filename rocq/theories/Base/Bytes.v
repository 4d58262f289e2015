(** Bytes, byte orders and the encoding of fixed size words.  A byte is an
    integer in [0, 256), a file or a piece of memory a list of bytes.  Nothing in
    this file models a particular function of /repo; it fixes the meaning of
    encoding/binary, of os.File and of the memory layout. *)
From Coq Require Import ZArith List Bool.
Import ListNotations.
Open Scope Z_scope.

Inductive order := Little | Big.
Definition order_eqb (a b : order) : bool :=
  match a, b with Little, Little | Big, Big => true | _, _ => false end.

(** The k lowest bytes of a word, lowest first. *)
Fixpoint le (k : nat) (v : Z) : list Z :=
  match k with O => [] | S k => v mod 256 :: le k (v / 256) end.
Fixpoint of_le (l : list Z) : Z :=
  match l with [] => 0 | b :: l => b + 256 * of_le l end.

(** PutUint / Uint of the two byte orders. *)
Definition put (o : order) (k : nat) (v : Z) : list Z :=
  match o with Little => le k v | Big => rev (le k v) end.
Definition word (o : order) (l : list Z) : Z :=
  match o with Little => of_le l | Big => of_le (rev l) end.

(** Two's complement: the signed value of a word of [bits] bits, and the
    reduction of an integer to one. *)
Definition signed (bits v : Z) : Z := if v <? 2 ^ (bits - 1) then v else v - 2 ^ bits.
Definition wrap64 (v : Z) : Z := signed 64 (v mod 2 ^ 64).
Definition wrap32 (v : Z) : Z := signed 32 (v mod 2 ^ 32).

(** Words of several sizes one after another: what binary.Write writes for a
    struct and what binary.Read finds. *)
Definition encode (o : order) (l : list (nat * Z)) : list Z := flat_map (fun p => put o (fst p) (snd p)) l.
Fixpoint decode (o : order) (sizes : list nat) (l : list Z) : list Z :=
  match sizes with
  | [] => []
  | k :: sizes => word o (firstn k l) :: decode o sizes (skipn k l)
  end.

(** The first n words of k bytes: how a machine with byte order [o] sees memory. *)
Definition words (o : order) (k n : nat) (l : list Z) : list Z := decode o (repeat k n) l.

(** io.ReadFull at an offset: nothing unless all bytes are there. *)
Definition read_full (file : list Z) (pos n : nat) : option (list Z) :=
  let b := firstn n (skipn pos file) in
  if Nat.eqb (length b) n then Some b else None.

(** os.File.Read at an offset into a piece of memory: as many bytes as the
    file has, and io.EOF if there is none although some are wanted.  The rest of
    the memory is unchanged. *)
Definition read_into (file : list Z) (pos : nat) (mem : list Z) : option (list Z) :=
  let b := firstn (length mem) (skipn pos file) in
  match b, mem with
  | [], _ :: _ => None
  | _, _ => Some (b ++ skipn (length b) mem)
  end.
