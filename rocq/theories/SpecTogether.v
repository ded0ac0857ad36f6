(** * Specification vocabulary: several builds at the same time. *)

From Coq Require Import ZArith Ascii String Lia Bool List.
From Verif Require Import Base FileSys Frugal Deps Cookie Build SpecBuild SpecFiles SpecHistory Plan SpecPlan Together.
Import ListNotations.

Section Spec.
Variables (sg : bool) (out : bytes).

(** Processes with requests [rs 0], [rs 1], ... begin in the state [w], and have come to [s]. *)
Definition at_once (E : env) (whole : bool) (rs : nat -> list req) (w : world) (s : sys) : Prop :=
  exists bs, (forall i, plan sg out (rs i) = Ok (bs i)) /\ goes E whole (Sys (fun i => PNext (bs i)) w) s.

(** Process [i] has ended with success. *)
Definition succeeded (s : sys) (i : nat) : Prop := procs s i = PEnd 0.

(** Process [i] has not begun yet. *)
Definition not_begun (rs : nat -> list req) (s : sys) (i : nat) : Prop := exists bs, plan sg out (rs i) = Ok bs /\ procs s i = PNext bs.

(** From [s] to [s'] no process but [i] has moved. *)
Definition only (i : nat) (s s' : sys) : Prop := forall j, j <> i -> procs s' j = procs s j.

(** A build of the requests, interrupted anywhere, has left [w']. *)
Definition cut_build (E : env) (rs : list req) (w w' : world) : Prop := exists bs, plan sg out rs = Ok bs /\ during E bs w w'.

(** No two processes ask for one product with different flags. *)
Definition agree (rs : nat -> list req) : Prop :=
  (forall i j a b, wanted sg out (rs i) a -> wanted sg out (rs j) b -> it_out a = it_out b -> it_flags a = it_flags b) /\
  (forall i j a b, wanted_link sg out (rs i) a -> wanted_link sg out (rs j) b -> lk_out a = lk_out b -> lk_flags a = lk_flags b).

(** No product is there that was made with other flags than those asked for. *)
Definition same_flags_asked (rs : nat -> list req) (f : fs) : Prop :=
  (forall i it c t, wanted sg out (rs i) it -> f (it_out it) = File c t -> recorded f it) /\
  (forall i r c t, wanted_link sg out (rs i) r -> f (lk_out r) = File c t -> lrecorded f r).

(** [w] results from a state without products, [w0], by edits, single builds, failures and interruptions, and
    processes that build at the same time, which may be cut short at any moment (a machine that is switched off). *)
Inductive team_past (E : env) (inst_area srcs : bytes -> Prop) (links : link_kind -> list bytes -> Prop) : world -> world -> Prop :=
| tp_start w : (forall p, product_dir out p -> files w p = Absent) -> team_past E inst_area srcs links w w
| tp_event w0 w w' : team_past E inst_area srcs links w0 w ->
    evolves E (product_dir out) inst_area (named_item sg out srcs) (named_link sg out links) w w' -> team_past E inst_area srcs links w0 w'
| tp_team rs w0 w s : team_past E inst_area srcs links w0 w -> next_second sg out E links w ->
    (forall i, good_requests sg out inst_area srcs links (rs i)) -> agree rs -> same_flags_asked rs (files w) ->
    at_once E true rs w s -> team_past E inst_area srcs links w0 (shared s).
End Spec.
