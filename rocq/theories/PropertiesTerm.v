(** * C74: what Bob has to say is shown.

    [truns tty s l s'] (Term.v): from the state [s] Bob's threads can get to [s'], having printed [l] (who, on which stream, what), if standard output is a terminal ([tty]) or not.
    [finish e s'] is all that was written to the descriptors in the end, in order, if Bob ends by exiting, by becoming another program or by dying. *)

From Coq Require Import NArith Arith Ascii String Lia Bool List.
From Verif Require Import Base SpecLex Term SpecTerm TermProofs.
Import ListNotations.
Local Open Scope nat_scope.

(** ** Nothing is lost *)

(** When Bob exits, all that its threads had to say has been shown, each piece whole, in an order that keeps that of each thread, and each stream in this order. *)
Theorem C74_everything_is_shown tty acts own s' l : truns tty (TSt acts own [] []) l s' -> all_done s' ->
  merged (fun w => prints (acts w)) l /\ from Out (finish Exits s') = text_on false l /\ from Err (finish Exits s') = text_on true l.
Proof. exact (exit_prints_all tty acts own s' l). Qed.
Print Assumptions C74_everything_is_shown.

(** However and whenever Bob ends, all errors and warnings were shown, and of the rest a first part. *)
Theorem C74_errors_are_shown_at_once tty acts own s' l e : truns tty (TSt acts own [] []) l s' ->
  from Err (finish e s') = text_on true l /\ exists y, text_on false l = from Out (finish e s') ++ y.
Proof. exact (errors_always_shown tty acts own s' l e). Qed.
Print Assumptions C74_errors_are_shown_at_once.

(** 'bob run' and 'bob sh' become the program they run. On a terminal all messages are shown before what the program prints (if they end in whole lines). Missing: when standard output is no terminal. *)
Theorem C74_shown_before_the_program_partial acts own s' l x : truns true (TSt acts own [] []) l s' -> ends_line (text_on false l) ->
  exists before, finish (Becomes x) s' = before ++ [(Program, x)] /\ from Out before = text_on false l /\ from Err before = text_on true l.
Proof. exact (terminal_shows_first acts own s' l x). Qed.
Print Assumptions C74_shown_before_the_program_partial.

(** Otherwise ("bob run | less") they may never be shown: compiling a source with a warning, then running a program, may show nothing but the program's output. *)
Theorem C74_shown_before_the_program_refuted :
  ~ (forall tty acts own s' l x, truns tty (TSt acts own [] []) l s' -> all_done s' -> ends_line (text_on false l) -> from Out (finish (Becomes x) s') = text_on false l).
Proof.
  exact (fun H => eq_ind (begun false ta ++ reported false ta) (fun y => match y with [] => False | _ => True end) Logic.I []
    (eq_trans (eq_sym one_said) (eq_trans (eq_sym (H false _ _ _ _ [] one_runs one_done (or_intror (ex_intro _ (removelast (text_on false (fst one_end))) eq_refl)))) (one_lost [])))).
Qed.
Print Assumptions C74_shown_before_the_program_refuted.

(** ** Which output is whose *)

(** The sources of one compile() call, on any number of threads in any schedule, if nothing is installed meanwhile: standard output consists of whole blocks, one when a source is begun and one when it is done, which has the
    heading with the name of the source and right after it the output of its compiler. Missing: several compile() calls in one build step, installing. *)
Theorem C74_outputs_follow_their_headings_partial tty colour l work s' tr :
  (forall w, Forall (fun t => fst t = l /\ no_notes (snd t)) (work w)) -> truns tty (TSt (fun w => works colour (work w)) (fun _ => None) [] []) tr s' -> all_done s' ->
  exists bs, merged (fun w => blocks colour (map snd (work w))) bs /\ from Out (finish Exits s') = concat (map snd bs).
Proof. exact (outputs_follow_headings tty colour l work s' tr). Qed.
Print Assumptions C74_outputs_follow_their_headings_partial.

(** Every compile() call has a lock of its own, so with two of them both headings may come before both outputs. *)
Theorem C74_outputs_follow_their_headings_refuted :
  ~ (forall tty colour work s' tr, (forall w, Forall (fun t => no_notes (snd t)) (work w)) -> truns tty (TSt (fun w => works colour (work w)) (fun _ => None) [] []) tr s' -> all_done s' ->
     exists bs, merged (fun w => blocks colour (map snd (work w))) bs /\ from Out (finish Exits s') = concat (map snd bs)).
Proof.
  exact (fun H => two_not_merged (eq_ind _ (fun t => exists bs, merged (fun w => blocks false (map snd (two_work w))) bs /\ t = concat (map snd bs))
    (H false false two_work _ _ two_quiet two_runs two_done) _ two_shows)).
Qed.
Print Assumptions C74_outputs_follow_their_headings_refuted.

(** ** Colours *)

(** Messages are coloured exactly if this is forced or if both streams are terminals and COLORTERM or TERM says that they have colours. *)
Theorem C74_colours e : supports_colour e = true <->
  te_force e = true \/
  te_out_tty e = true /\ te_err_tty e = true /\ ((exists c x, te_colorterm e = Some (c :: x)) \/ exists a b, te_term e = Some (a ++ lit "color" ++ b)).
Proof. exact (colours e). Qed.
Print Assumptions C74_colours.

(** Without colours, the lines about a source have no escape sequences but resets. *)
Theorem C74_plain_lines_partial t : ~ In ESC (t_src t) ->
  only_resets (begun false t) /\ forall f : bool, only_resets (vlog false (if f then Error else Success) (heading f (t_src t) (t_out t))).
Proof. exact (plain_lines t). Qed.
Print Assumptions C74_plain_lines_partial.

(** These they do have, even in a file. *)
Theorem C74_plain_lines_refuted : ~ (forall e t, supports_colour e = false -> ~ In ESC (t_src t) -> ~ In ESC (begun (supports_colour e) t)).
Proof. exact (fun H => H (TEnv false false false None None) ta eq_refl ta_plain ta_escapes). Qed.
Print Assumptions C74_plain_lines_refuted.

(** ** Cases that meet the hypotheses *)

Definition two_at_once (w : nat) : list (nat * told) :=
  match w with 0 => [(7, ta)] | 1 => [(7, Told (lit "b.c") [(Warn, lit "no deps")] true (lit "error" ++ [LF]) [])] | _ => [] end.
Definition busy_start : tst := TSt (fun w => works true (two_at_once w)) (fun _ => None) [] [].
Definition busy_end : list (nat * (bool * bytes)) * tst := match steps busy_start [] [0;0;0;1;1;1;0;1;0;0;0;1;1;1;1] with Some r => r | None => ([], busy_start) end.
Example C74_nonvacuous :
  truns false busy_start (fst busy_end) (snd busy_end) /\ all_done (snd busy_end) /\
  (forall w, Forall (fun t => fst t = 7 /\ no_notes (snd t)) (two_at_once w)) /\ ends_line (text_on false (fst busy_end)) /\ length (fst busy_end) = 7.
Proof.
  split; [apply (steps_runs [0;0;0;1;1;1;0;1;0;0;0;1;1;1;1] busy_start busy_start []); [constructor|vm_compute; reflexivity]|]. split; [intros [|[|w]]; reflexivity|]. split.
  - intros [|[|w]]; repeat constructor.
  - split; [right; exists (removelast (text_on false (fst busy_end))); vm_compute; reflexivity|vm_compute; reflexivity].
Qed.

(** On a terminal: one line that is shown at once, and a program after it. *)
Example C74_terminal_nonvacuous :
  let s := TSt (fun w => match w with 0 => [say true Info (lit "a")] | _ => [] end) (fun _ => None) [] [] in
  exists s', truns true s [(0, (false, vlog true Info (lit "a")))] s' /\ all_done s' /\ pend s' = [] /\ ends_line (text_on false [(0, (false, vlog true Info (lit "a")))]).
Proof.
  eexists. split; [|split; [|split]].
  - change [(0, (false, vlog true Info (lit "a")))] with ([] ++ [(0, (false, vlog true Info (lit "a")))]). eapply truns_more; [apply truns_none|]. eapply ts_out; [reflexivity|]. vm_compute. reflexivity.
  - intros [|w]; reflexivity.
  - reflexivity.
  - right. exists (removelast (vlog true Info (lit "a"))). vm_compute. reflexivity.
Qed.
