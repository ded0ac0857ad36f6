(** * UTF-8 (RFC 3629, section 3). *)

From Coq Require Import NArith ZArith Ascii List.
From Verif Require Import Base.
Import ListNotations.
Local Open Scope N_scope.

(** The characters of Unicode: all numbers up to 10FFFF but the surrogates D800 to DFFF. *)
Definition character (c : N) : Prop := c < 55296 \/ (57344 <= c /\ c < 1114112).

(** Six bits of a character in a byte that continues it. *)
Definition rest_byte (x : N) : ascii := ascii_of_N (128 + x mod 64).
Definition utf8 (c : N) : bytes :=
  if c <? 128 then [ascii_of_N c]
  else if c <? 2048 then [ascii_of_N (192 + c / 64); rest_byte c]
  else if c <? 65536 then [ascii_of_N (224 + c / 4096); rest_byte (c / 64); rest_byte c]
  else [ascii_of_N (240 + c / 262144); rest_byte (c / 4096); rest_byte (c / 64); rest_byte c].

(** Any character but these. *)
Definition any_but (l : list N) (c : N) : Prop := character c /\ ~ In c l.
