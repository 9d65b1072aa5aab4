(** Fortran unformatted sequential files: each record is stored as <length> <payload> <length>, the length being a
    little-endian 32-bit integer. *)
From Coq.Strings Require Import Byte.
From Verif Require Import Base.
Local Open Scope list_scope. Local Open Scope nat_scope.

(** The [k]-th byte (k = 0 the least significant) of an integer. *)
Definition nth_byte (k : nat) (z : Z) : byte :=
  match Byte.of_N (Z.to_N ((z / 256 ^ Z.of_nat k) mod 256)) with Some b => b | None => x00 end.
Definition le32 (z : Z) : list byte := [nth_byte 0 z; nth_byte 1 z; nth_byte 2 z; nth_byte 3 z].
Definition record (payload : list byte) : list byte :=
  le32 (Z.of_nat (length payload)) ++ payload ++ le32 (Z.of_nat (length payload)).
Definition sections (ps : list (list byte)) : list byte := concat (map record ps).

(** [bs] at offset [p] of [file]. *)
Definition bytes_at (file : list byte) (p : nat) (bs : list byte) : Prop :=
  exists pre post, file = pre ++ bs ++ post /\ length pre = p.
