(** * String hashing and hexadecimal formatting (src/str.c, PRIx64). *)

From Coq Require Import ZArith Ascii String Lia Bool List.
From Verif Require Import Base.
Import ListNotations.
Open Scope Z_scope.

Definition two64 : Z := 18446744073709551616.

(** Conversion to [uint64_t]. *)
Definition wrap64 (z : Z) : Z := z mod two64.

(** Value of a [char] converted to [uint64_t] arithmetic. Whether plain [char] is signed depends on the
    platform (signed on x86-64, unsigned on Linux/AArch64): a parameter of the model. *)
Definition char_val (signed : bool) (c : ascii) : Z :=
  let n := Z.of_N (N_of_ascii c) in
  if signed && (128 <=? n) then n - 256 else n.

(** str.c 10-12, one iteration: [hash = ((hash << 5) + hash) + str[i]], all in [uint64_t]. *)
Definition hash_step (signed : bool) (h : Z) (c : ascii) : Z :=
  wrap64 (wrap64 (wrap64 (Z.shiftl h 5) + h) + wrap64 (char_val signed c)).

(** str.c 7-15: [str_hash(str, len)], djb2 from 5381. *)
Definition str_hash (signed : bool) (s : bytes) : Z :=
  fold_left (hash_step signed) s 5381.

(** printf("%" PRIx64): lower-case hexadecimal without leading zeroes ("0" for zero). *)
Definition hex_digit (d : Z) : ascii :=
  ascii_of_N (Z.to_N (if d <? 10 then 48 + d else 87 + d)).

(** Least significant digit first; [n] bounds the number of digits (16 suffice for 64 bits). *)
Fixpoint hex_rev (n : nat) (z : Z) : bytes :=
  match n with
  | O => []
  | S n' => if z =? 0 then [] else hex_digit (z mod 16) :: hex_rev n' (z / 16)
  end.

Definition hex64 (z : Z) : bytes :=
  if z =? 0 then lit "0" else rev (hex_rev 16 z).
