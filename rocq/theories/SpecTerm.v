(** * What is to be seen of Bob's messages. *)

From Coq Require Import Arith Ascii String Bool List.
From Verif Require Import Base SpecLex Term.
Import ListNotations.
Local Open Scope nat_scope.

(** The bytes that came from one place. *)
Definition chan_eqb (a b : chan) : bool := match a, b with Out, Out | Err, Err | Program, Program => true | _, _ => false end.
Definition from (c : chan) (l : list (chan * bytes)) : bytes := concat (map snd (filter (fun p => chan_eqb (fst p) c) l)).

(** What a thread prints, in order: on standard error ([true]) or output. *)
Definition prints (l : list act) : list (bool * bytes) := flat_map (fun a => match a with Print e x => [(e, x)] | _ => [] end) l.

(** [l] is an order of what the threads do that keeps the order of each. *)
Definition part {A : Type} (w : nat) (l : list (nat * A)) : list A := map snd (filter (fun p => fst p =? w) l).
Definition merged {A : Type} (parts : nat -> list A) (l : list (nat * A)) : Prop := forall w, part w l = parts w.

(** The bytes that a sequence of prints has for one stream. *)
Definition text_on (err : bool) (l : list (nat * (bool * bytes))) : bytes := concat (map snd (filter (fun p => Bool.eqb (fst p) err) (map snd l))).

Definition all_done (s : tst) : Prop := forall w, todo s w = [].

(** What standard output is to have for one compilation: the line that it has begun and, when it is over, the heading with the output right after it
    (of a failed compilation the output; its heading is on standard error). *)
Definition begun (colour : bool) (t : told) : bytes := vlog colour Info (t_src t ++ CLEAR ++ lit ": Compiling...").
Definition reported (colour : bool) (t : told) : bytes :=
  (if t_failed t then [] else vlog colour Success (heading false (t_src t) (t_out t))) ++ cstr (t_out t).
Definition blocks (colour : bool) (ts : list told) : list bytes := flat_map (fun t => [begun colour t; reported colour t]) ts.

(** Nothing on standard output but these. *)
Definition no_notes (t : told) : Prop := Forall (fun m => to_err (fst m) = true) (t_before t ++ t_after t).

Definition ends_line (x : bytes) : Prop := x = [] \/ exists y, x = y ++ [LF].

(** Every escape character begins a reset to plain text. *)
Definition only_resets (x : bytes) : Prop := forall a b, x = a ++ ESC :: b -> exists b', b = lit "[0m" ++ b'.
