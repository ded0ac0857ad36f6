(** * Specification vocabulary: operands that can be let go of. *)

From Coq Require Import ZArith Ascii String Lia Bool List.
From Verif Require Import Base FlAst FlState SpecFlamingo SpecScript.
Import ListNotations.

(** Not functions and not instances. *)
Definition ordinary (v : data) : Prop := match v with DFn _ | DInst _ _ _ => False | _ => True end.

(** If the values at [a] and [b] are strings, they do not share their bytes; or they are one value, which has two holders at least. *)
Definition separate {H} (s : st H) (a b : addr) : Prop :=
  forall ca cb b1 n1 b2 n2, nth_error (cells s) a = Some ca -> nth_error (cells s) b = Some cb -> c_val ca = PStr b1 n1 -> c_val cb = PStr b2 n2 ->
  (a = b -> (2 <= c_cnt ca)%Z) /\ (a <> b -> b1 <> b2).

(** The name the value at [a] was given, if any, can still be read: the text it comes from has not been let go of. *)
Definition name_kept {H} (s : st H) (a : addr) : Prop :=
  forall c i x, nth_error (cells s) a = Some c -> c_name c = NKey i x -> exists sc, nth_error (scopes s) i = Some sc /\ sc_alive sc = true.

(** So for each element of the vector, and each key and value of the map, at [a]. *)
Definition element_names_kept {H} (s : st H) (a : addr) : Prop :=
  forall c, nth_error (cells s) a = Some c ->
  (forall es e, c_val c = PVec es -> In e es -> name_kept s e) /\
  (forall kvs k v, c_val c = PMap kvs -> In (k, v) kvs -> name_kept s k /\ name_kept s v).
