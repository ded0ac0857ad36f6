(** * A text that is laid out by the grammar is read: what the lexer finds, and the turns of the parser. *)

From Coq Require Import NArith Arith Ascii String Lia Bool List.
From Verif Require Import Base FlAst FlTables FlParse SpecLex LexProofs SpecSyntax ReadGrammar SpecGrammar ParseProofs.
Import ListNotations.
Local Open Scope nat_scope.

(** ** Tokens are found *)

Definition over (m : N) : Prop := moves m [LF] = Some (Skip m).

Lemma blank_space c : blank c = true -> c <> LF -> (blank c && negb (Ascii.eqb c LF)) = true.
Proof. intros B H. apply Ascii.eqb_neq in H. rewrite B, H. reflexivity. Qed.

Lemma gap_skip m far c b : skips m = true -> (far = true -> over m) -> gap far (c :: b) ->
  moves m [c] = Some (Skip m) /\ accepts m = None /\ gap far b.
Proof.
  intros K O G. pose proof K as K'. unfold skips in K'. apply andb_true_iff in K' as [A M].
  assert (accepts m = None) as A' by (destruct (accepts m); [discriminate|reflexivity]).
  assert (Q : forall d, (blank d && negb (Ascii.eqb d LF)) = true -> moves m [d] = Some (Skip m)).
  { intros d D. pose proof (some_byte _ _ the_spaces the_spaces_eq M d D) as H. cbv beta in H.
    destruct (moves m [d]) as [[|m']|]; try discriminate. apply N.eqb_eq in H. subst m'. reflexivity. }
  split; [|split; [exact A'|]].
  - unfold gap in G. destruct far.
    + cbn [forallb] in G. apply andb_true_iff in G as [B _].
      destruct (ascii_dec c LF) as [->|H]; [exact (O eq_refl)|]. apply Q, blank_space; assumption.
    + unfold spaces in G. cbn [forallb] in G. apply andb_true_iff in G as [B _]. apply Q, B.
  - unfold gap, spaces in *. destruct far; cbn [forallb] in G; apply andb_true_iff in G as [_ G]; exact G.
Qed.

Lemma gap_found b : forall far fuel m r bl best x w r',
  skips m = true -> (far = true -> over m) -> gap far b ->
  (forall fuel' bl', fuel <= fuel' -> lex_run fuel' m r bl' [] best = Found (Token x (rev bl') w r')) ->
  lex_run (length b + fuel) m (b ++ r) bl [] best = Found (Token x (rev bl ++ b) w r').
Proof.
  induction b as [|c b IH]; intros far fuel m r bl best x w r' K O G R.
  - cbn [length app]. rewrite app_nil_r. apply R. lia.
  - destruct (gap_skip m far c b K O G) as (Mv & E & G').
    cbn [length app Nat.add]. rewrite lex_run_step. cbv zeta. rewrite (moves_head m c (b ++ r) []), Mv, E. cbn [app].
    rewrite (IH far fuel m r (c :: bl) best x w r' K O G' R). cbn [rev]. rewrite <- app_assoc. reflexivity.
Qed.

Lemma gap_walk s m far b w r k x :
  lex_mode s = Some m -> skips m = true -> (far = true -> over m) -> gap far b ->
  walk m w = Some k -> accepts k = Some x -> moves k r = None ->
  lex_in s (b ++ w ++ r) = Ahead (Token x b w r).
Proof.
  intros Lm K O B W A M. unfold lex_in. rewrite Lm. unfold lex.
  replace (length (b ++ w ++ r) + 3) with (length b + (length (w ++ r) + 3)) by (rewrite !app_length; lia).
  rewrite (gap_found b far _ m (w ++ r) [] None x w r K O B); [reflexivity|].
  intros fuel' bl' L. erewrite walk_found; [reflexivity|exact W|exact A|exact M|].
  rewrite app_length in L. lia.
Qed.

Definition words_stop (m : N) : bool :=
  forallb (fun x =>
    match word x with
    | Some w =>
      match walk m w with
      | Some k => negb match accepts k with Some y => sym_eqb x y | None => false end || sym_eqb x T_POUND_POUND ||
        forallb (fun c => match moves k [c] with None => true | Some _ => joins w c end) all_bytes
      | None => true
      end
    | None => true
    end) all_syms.

Lemma words_stop_check : forallb words_stop modes = true.
Proof. vm_compute. reflexivity. Qed.

Lemma word_stops m x w k c r :
  In m modes -> word x = Some w -> walk m w = Some k -> accepts k = Some x -> x <> T_POUND_POUND -> joins w c = false -> moves k (c :: r) = None.
Proof.
  intros I W Wk Ak P J. pose proof words_stop_check as C. rewrite forallb_forall in C. specialize (C m I).
  pose proof (every_sym _ C x) as H. cbv beta in H. rewrite W, Wk, Ak in H.
  replace (sym_eqb x x) with true in H by (symmetry; apply sym_eqb_eq; reflexivity).
  destruct (sym_eqb x T_POUND_POUND) eqn:E; [apply sym_eqb_eq in E; contradiction|]. cbn [negb orb] in H. pose proof (every_byte _ H c) as B. cbv beta in B.
  rewrite (moves_head k c r []). destruct (moves k [c]); [|reflexivity]. rewrite J in B. discriminate.
Qed.

(** Every token with a spelling of its own, a name that is no keyword, a number, a string, line ends. *)
Inductive told (k : tok) : Prop :=
| told_word : word (k_sym k) = Some (k_text k) -> k_sym k <> T_POUND_POUND -> told k
| told_name : k_sym k = T_identifier_token1 -> is_name (k_text k) = true -> (forall y, word y <> Some (k_text k)) -> told k
| told_number : k_sym k = T_number -> k_text k <> [] -> forallb digit (k_text k) = true -> told k
| told_string s : k_sym k = T_string -> k_text k = [""""%char] ++ s ++ [""""%char] -> quotable s -> told k
| told_lines : k_sym k = T_LF -> k_text k <> [] -> forallb (Ascii.eqb LF) (k_text k) = true -> told k.

Lemma word_plain x w : word x = Some w ->
  match x with T_identifier_token1 | T_number | T_string | T_LF | T_comment => False | _ => True end.
Proof. destruct x; try discriminate; intros _; exact Logic.I. Qed.

Lemma apart_word k c r : word (k_sym k) = Some (k_text k) -> apart k (c :: r) -> joins (k_text k) c = false.
Proof. intros W. pose proof (word_plain _ _ W) as P. unfold apart. destruct (k_sym k); try contradiction; auto. Qed.

Lemma told_walks s k r :
  s <> 0%N -> allows s (k_sym k) = true -> told k -> apart k r ->
  exists m q, lex_mode s = Some m /\ skips m = true /\ walk m (k_text k) = Some q /\ accepts q = Some (k_sym k) /\
              moves q r = None.
Proof.
  intros Z A T Ap. destruct T as [W P|X N NW|X N D|u X E Q|X N L].
  - destruct (row_mode s (k_sym k) A) as (m & Lm & K).
    { cbn [existsb]. destruct (k_sym k); try reflexivity; try discriminate W. contradiction. }
    destruct (row_end s m Lm (row_facts _ _ A)) as (_ & _ & _ & _ & _ & _ & F).
    destruct (F _ _ W A Z P) as (q & Wk & Ak & Hk). exists m, q.
    repeat (split; [assumption|]). destruct r as [|c r].
    + apply halts_moves; [exact Hk|exact Logic.I].
    + exact (word_stops _ _ _ _ _ _ (mode_in _ _ Lm) W Wk Ak P (apart_word _ _ _ W Ap)).
  - rewrite X in *. destruct (row_mode s _ A eq_refl) as (m & Lm & K).
    destruct (row_end s m Lm (row_facts _ _ A)) as (F & _). pose proof (F A) as I.
    destruct (naming_walk _ _ I N) as (q & W & Wk).
    assert (St : stops r) by (unfold apart in Ap; rewrite X in Ap; unfold stops; destruct r; auto).
    exists m, q. repeat (split; [assumption|]). split; [|exact (worded_stops _ _ Wk St)].
    pose proof Wk as K'. unfold worded in K'. apply andb_true_iff in K' as [_ K'].
    destruct (accepts q) as [x|] eqn:Ak; [|discriminate]. apply orb_true_iff in K' as [K'|K'].
    + exfalso.
      pose proof (fits_sound _ _ _ (state_accepts _ _ Ak) (walk_sat _ _ _ [] W (mode_shape _ (naming_mode _ I)))) as Sp.
      cbn [app] in Sp. inversion Sp; subst; try discriminate K'; eapply NW; eassumption.
    + apply sym_eqb_eq in K'. subst x. reflexivity.
  - rewrite X in *. destruct (row_mode s _ A eq_refl) as (m & Lm & K).
    destruct (row_end s m Lm (row_facts _ _ A)) as (_ & F & _). specialize (F A).
    assert (H : match r with [] => True | c :: _ => digit c = false end)
      by (unfold apart in Ap; rewrite X in Ap; destruct r; auto).
    clear Ap X. destruct (k_text k) as [|c w]; [contradiction|]. cbn [forallb] in D. apply andb_true_iff in D as [Dc D].
    exists m, 180%N. split; [exact Lm|]. split; [exact K|]. split; [|split; [reflexivity|]].
    + cbn [walk]. rewrite (F c Dc). clear - D. induction w as [|d w IH]; [reflexivity|].
      cbn [forallb] in D. apply andb_true_iff in D as [Dd D]. cbn [walk]. rewrite moves_cons.
      change (snd (lex_state 180)) with [(CIn 48 57, Advance 180)]. cbn [pick holds].
      unfold digit, between in Dd. rewrite Dd. exact (IH D).
    + destruct r as [|d r]; [reflexivity|]. rewrite moves_cons.
      change (snd (lex_state 180)) with [(CIn 48 57, Advance 180)]. cbn [pick holds].
      unfold digit, between in H. rewrite H. reflexivity.
  - rewrite X, E in *. destruct (row_mode s _ A eq_refl) as (m & Lm & K).
    destruct (row_end s m Lm (row_facts _ _ A)) as (_ & _ & F & _). specialize (F A).
    exists m, 181%N. split; [exact Lm|]. split; [exact K|]. split; [|split; [reflexivity|]].
    + cbn [walk app]. rewrite F. rewrite (walk_app _ _ _ _ (quotable_walk _ Q)). reflexivity.
    + unfold moves. change (snd (lex_state 181)) with (@nil (cond * move)). reflexivity.
  - rewrite X in *. destruct (row_mode s _ A eq_refl) as (m & Lm & K).
    destruct (row_end s m Lm (row_facts _ _ A)) as (_ & _ & _ & F & _). specialize (F A).
    assert (H : match r with [] => True | c :: _ => c <> LF end)
      by (unfold apart in Ap; rewrite X in Ap; destruct r; auto).
    clear Ap X. destruct (k_text k) as [|c w]; [contradiction|]. cbn [forallb] in L. apply andb_true_iff in L as [Lc L].
    apply Ascii.eqb_eq in Lc. subst c.
    exists m, 45%N. split; [exact Lm|]. split; [exact K|]. split; [|split; [reflexivity|]].
    + cbn [walk]. rewrite F. clear - L. induction w as [|d w IH]; [reflexivity|].
      cbn [forallb] in L. apply andb_true_iff in L as [Ld L]. apply Ascii.eqb_eq in Ld. subst d. exact (IH L).
    + destruct r as [|c r]; [reflexivity|]. rewrite moves_cons.
      change (snd (lex_state 45)) with [(CEq 10, Advance 45)]. cbn [pick holds].
      change 10%N with (N_of_ascii LF). rewrite N_of_ascii_eqb. apply Ascii.eqb_neq in H. rewrite H. reflexivity.
Qed.

Lemma eats_over s m : eats s = true -> lex_mode s = Some m -> over m.
Proof.
  unfold eats, over. intros E Lm. rewrite Lm in E. apply andb_true_iff in E as [_ E].
  destruct (moves m [LF]) as [[|m']|]; try discriminate. apply N.eqb_eq in E. subst m'. reflexivity.
Qed.

Theorem tok_found s far k r :
  s <> 0%N -> allows s (k_sym k) = true -> (far = true -> eats s = true) -> gap far (k_blank k) -> told k -> apart k r ->
  lex_in s (k_blank k ++ k_text k ++ r) = Ahead (Token (k_sym k) (k_blank k) (k_text k) r).
Proof.
  intros Z A O G T Ap. destruct (told_walks s k r Z A T Ap) as (m & q & Lm & K & W & Aq & M).
  apply (gap_walk s m far _ _ _ q); try assumption. intros F. exact (eats_over _ _ (O F) Lm).
Qed.

(** Comments. *)
Definition noted (s : N) : bool :=
  match first_action (actions s T_comment), lex_mode s with
  | Some ShiftExtra, Some m =>
    skips m && match moves m ["#"%char] with Some (Advance k) => N.eqb k 11 | _ => false end
  | _, _ => false
  end.

Lemma noted_check :
  forallb (fun p => forallb (fun x => sym_eqb x T_POUND_POUND || sym_eqb x T_doc_comment_content ||
    match first_action (actions p x) with Some (Shift s) => noted s | _ => true end) all_syms) all_rows = true.
Proof. vm_compute. reflexivity. Qed.

Lemma shift_noted p x s : x <> T_POUND_POUND -> x <> T_doc_comment_content -> first_action (actions p x) = Some (Shift s) -> noted s = true.
Proof.
  intros X X' A. assert (Al : allows p x = true) by (unfold allows; destruct (actions p x); [discriminate|reflexivity]).
  pose proof (every_row _ noted_check p _ Al) as H. cbv beta in H. pose proof (every_sym _ H x) as H'. cbv beta in H'.
  rewrite A in H'. apply orb_true_iff in H' as [H'|H']; [|exact H']. apply orb_true_iff in H' as [H'|H']; apply sym_eqb_eq in H'; contradiction.
Qed.

Lemma remark_walk w : forallb inline w = true -> walk 46 w = Some 46%N.
Proof.
  induction w as [|c w IH]; [reflexivity|]. cbn [forallb walk]. intros H. apply andb_true_iff in H as [C H].
  rewrite moves_cons. change (snd (lex_state 46)) with [(CAnd (CNe 0) (CNe 10), Advance 46)]. cbn [pick holds].
  unfold inline in C. apply andb_true_iff in C as [C1 C2].
  change 10%N with (N_of_ascii LF). change 0%N with (N_of_ascii NUL). rewrite !N_of_ascii_eqb. rewrite C1, C2. exact (IH H).
Qed.

Theorem note_found s far k r :
  noted s = true -> (far = true -> eats s = true) -> gap far (k_blank k) -> comment_is k -> apart k r ->
  lex_in s (k_blank k ++ k_text k ++ r) = Ahead (Token (k_sym k) (k_blank k) (k_text k) r) /\
  first_action (actions s (k_sym k)) = Some ShiftExtra.
Proof.
  intros Nt O G (c & w & X & W & C & I) Ap. unfold noted in Nt. rewrite X.
  destruct (first_action (actions s T_comment)) as [[| | | | |]|]; try discriminate Nt. split; [|reflexivity].
  destruct (lex_mode s) as [m|] eqn:Lm; [|discriminate]. apply andb_true_iff in Nt as [K M].
  destruct (moves m ["#"%char]) as [[k0|]|] eqn:E; try discriminate. apply N.eqb_eq in M. subst k0.
  apply (gap_walk s m far _ _ _ 46%N); try assumption; [|rewrite W|reflexivity|].
  - intros F. exact (eats_over _ _ (O F) Lm).
  - cbn [walk]. rewrite E. cbn [forallb] in I. apply andb_true_iff in I as [Ic I]. rewrite moves_cons.
    change (snd (lex_state 11)) with [(CEq 35, Advance 47); (CNe 0, Advance 46)]. cbn [pick holds].
    unfold inline in Ic. apply andb_true_iff in Ic as [_ Ic].
    change 35%N with (N_of_ascii "#"). change 0%N with (N_of_ascii NUL). rewrite !N_of_ascii_eqb. rewrite Ic.
    apply Ascii.eqb_neq in C. rewrite C. exact (remark_walk _ I).
  - unfold apart in Ap. rewrite X in Ap. destruct r as [|d r]; [reflexivity|]. rewrite moves_cons.
    change (snd (lex_state 46)) with [(CAnd (CNe 0) (CNe 10), Advance 46)]. cbn [pick holds].
    change 10%N with (N_of_ascii LF). change 0%N with (N_of_ascii NUL). rewrite !N_of_ascii_eqb.
    unfold inline in Ap. rewrite andb_comm, Ap. reflexivity.
Qed.

(** The end of the text. *)
Lemma end_rows_check : forallb (fun s => N.eqb s 0 || negb (allows s T_end) || match lex_mode s with Some m => skips m | None => N.eqb s 335 end) all_rows = true.
Proof. vm_compute. reflexivity. Qed.

Theorem end_found s far b :
  s <> 0%N -> s <> 335%N -> allows s T_end = true -> (far = true -> eats s = true) -> gap far b ->
  lex_in s b = Ahead (Token T_end b [] []).
Proof.
  intros Z Z' A O G. pose proof (every_row _ end_rows_check s _ A) as H. cbv beta in H.
  apply N.eqb_neq in Z. apply N.eqb_neq in Z'. rewrite Z, A in H. cbn [orb negb] in H.
  destruct (lex_mode s) as [m|] eqn:Lm; [|congruence].
  apply N.eqb_neq in Z. destruct (row_end s m Lm (row_facts _ _ A)) as (_ & _ & _ & _ & F & _). specialize (F A Z).
  unfold lex_in. rewrite Lm. unfold lex. rewrite <- (app_nil_r b) at 2.
  rewrite (gap_found b far 3 m [] [] None T_end [] [] H); [reflexivity| |exact G|].
  - intros E. exact (eats_over _ _ (O E) Lm).
  - intros fuel' bl' L. do 2 (destruct fuel' as [|fuel']; [lia|]). rewrite lex_run_step. cbv zeta. rewrite F.
    rewrite lex_run_step. cbv zeta. unfold accepts, moves.
    change (snd (lex_state 43)) with (@nil (cond * move)). change (fst (lex_state 43)) with (Some T_end). reflexivity.
Qed.

(** ** Trees by the forms *)

Definition note (k : tok) : tree := Leaf (k_sym k) (k_blank k) (k_text k) true.

Inductive matches : form -> tree -> list tok -> Prop :=
| matches_tok x brk k :
    k_sym k = x -> k_break k = brk -> told k -> matches (Tk x brk) (Leaf x (k_blank k) (k_text k) false) [k]
| matches_cat c f t ks : In f (shapes c) -> matches f t ks -> matches (Ct c) t ks
| matches_node x l cs ks :
    l <> [] -> matches_all l cs ks -> matches (Nd x l) (Node x (production x (map root_of l)) cs false) ks
with matches_all : list form -> list tree -> list tok -> Prop :=
| matches_nil : matches_all [] [] []
| matches_cons f t ks l cs ks' : matches f t ks -> matches_all l cs ks' -> matches_all (f :: l) (t :: cs) (ks ++ ks')
| matches_note f t ks ms l cs ks' :
    matches f t ks -> comments ms -> l <> [] -> matches_all l cs ks' ->
    matches_all (f :: l) (t :: map note ms ++ cs) (ks ++ ms ++ ks').

Scheme matches_mind := Induction for matches Sort Prop
  with matches_all_mind := Induction for matches_all Sort Prop.
Combined Scheme matches_both from matches_mind, matches_all_mind.

Lemma member_in x xs : member x xs = true <-> In x xs.
Proof.
  unfold member. rewrite existsb_exists. split.
  - intros (y & I & E). apply sym_eqb_eq in E. subst y. exact I.
  - intros I. exists x. split; [exact I|apply sym_eqb_eq; reflexivity].
Qed.

Lemma firsts_cat c f x : In f (shapes c) -> In x (firsts f) -> In x (firsts (Ct c)).
Proof.
  intros I F. pose proof firsts_check as C. rewrite forallb_forall in C. cbn [firsts]. unfold lookup.
  destruct (find (fun e => cat_eqb c (fst e)) starts_of) as [[d a]|] eqn:E.
  - apply find_some in E as [J E]. cbn [fst] in E. unfold cat_eqb in E. destruct (cat_eq_dec c d) as [<-|]; [|discriminate].
    specialize (C _ J). cbn [fst snd] in C. rewrite forallb_forall in C. specialize (C _ I).
    apply andb_true_iff in C as [C _]. rewrite forallb_forall in C. apply member_in, C, F.
  - exfalso. clear C. destruct c;
      try (vm_compute in E; discriminate E);
      do 8 (destruct m as [|m]; [vm_compute in E; discriminate E|]); clear E.
    + destruct I as [<-|I]; [|destruct I]. vm_compute in F. exact F.
    + destruct I as [<-|[<-|I]]; [| |destruct I]; vm_compute in F; exact F.
Qed.

Lemma first_token :
  (forall f t ks, matches f t ks -> exists k ks', ks = k :: ks' /\ In (k_sym k) (firsts f) /\ told k) /\
  (forall l cs ks, matches_all l cs ks ->
     match l with [] => ks = [] | f :: _ => exists k ks', ks = k :: ks' /\ In (k_sym k) (firsts f) /\ told k end).
Proof.
  apply matches_both.
  - intros x brk k E B T. exists k, []. split; [reflexivity|]. split; [left; symmetry; exact E|exact T].
  - intros c f t ks I M (k & ks' & -> & F & T). exists k, ks'. split; [reflexivity|]. split; [exact (firsts_cat _ _ _ I F)|exact T].
  - intros x l cs ks L M H. destruct l as [|f l]; [contradiction|]. exact H.
  - reflexivity.
  - intros f t ks l cs ks' M (k & ks0 & -> & F) _ _. exists k, (ks0 ++ ks'). split; [reflexivity|exact F].
  - intros f t ks ms l cs ks' M (k & ks0 & -> & F) _ _ _ _. exists k, (ks0 ++ ms ++ ks'). split; [reflexivity|exact F].
Qed.

(** The children that are not extra; the first and the last one are not. *)
Definition solid (t : tree) : bool := negb (extra t).

Lemma solid_notes ms : filter solid (map note ms) = [].
Proof. induction ms; [reflexivity|]. exact IHms. Qed.

Lemma matches_extra : (forall f t ks, matches f t ks -> solid t = true) /\
  (forall l cs ks, matches_all l cs ks ->
     length (filter solid cs) = length l /\
     (l <> [] -> (exists c cs', cs = c :: cs' /\ solid c = true) /\ (exists c cs', cs = cs' ++ [c] /\ solid c = true))).
Proof.
  apply matches_both; try reflexivity; auto.
  - split; [reflexivity|]. intros H. contradiction.
  - intros f t ks l cs ks' _ E M [F L]. cbn [filter length]. rewrite E. cbn [length]. split; [lia|]. intros _.
    split; [exists t, cs; auto|]. destruct l as [|g l].
    + inversion M; subst. exists t, []. auto.
    + destruct (L ltac:(discriminate)) as [_ (c & cs' & -> & Ec)]. exists c, (t :: cs'). auto.
  - intros f t ks ms l cs ks' _ E _ Nl _ [F L]. cbn [filter length]. rewrite E, filter_app, solid_notes. cbn [app length].
    split; [lia|]. intros _. split; [eexists _, _; split; [reflexivity|exact E]|].
    destruct (L Nl) as [_ (c & cs' & -> & Ec)]. exists c, (t :: map note ms ++ cs'). split; [|exact Ec].
    cbn [app]. rewrite app_assoc. reflexivity.
Qed.

(** ** The turns of the parser *)

Inductive steps : stack -> option ahead -> bytes -> stack -> option ahead -> bytes -> Prop :=
| steps_none stk la t : steps stk la t stk la t
| steps_one stk la t stk1 la1 t1 stk2 la2 t2 :
    advance stk la t = Next stk1 la1 t1 -> steps stk1 la1 t1 stk2 la2 t2 -> steps stk la t stk2 la2 t2.

Lemma steps_trans stk la t stk1 la1 t1 stk2 la2 t2 :
  steps stk la t stk1 la1 t1 -> steps stk1 la1 t1 stk2 la2 t2 -> steps stk la t stk2 la2 t2.
Proof. induction 1; auto. intros H'. eapply steps_one; [eassumption|]. auto. Qed.

(** A token of the list, or the end of the text. *)
Definition sound (k : tok) (r : bytes) : Prop :=
  ((told k \/ comment_is k) /\ apart k r) \/ (k_sym k = T_end /\ k_text k = [] /\ r = []).

Fixpoint settled (far : bool) (ks : list tok) : Prop :=
  match ks with
  | [] => True
  | k :: ks' => gap far (k_blank k) /\ sound k (written ks' []) /\ settled (onward far k) ks'
  end.

Fixpoint after (far : bool) (ks : list tok) : bool :=
  match ks with
  | [] => far
  | k :: ks' => after (onward far k) ks'
  end.

Lemma settled_after ks : forall far ks', settled far (ks ++ ks') -> settled (after far ks) ks'.
Proof. induction ks as [|k ks IH]; intros far ks'; cbn [app settled after]; [auto|]. intros (_ & _ & H). auto. Qed.

Lemma after_app ks : forall far ks', after far (ks ++ ks') = after (after far ks) ks'.
Proof. induction ks as [|k ks IH]; intros far ks'; cbn [app after]; [reflexivity|]. apply IH. Qed.

Lemma after_comments ms : forall far, comments ms -> after far ms = far.
Proof.
  induction ms as [|k ms IH]; intros far C; [reflexivity|]. inversion C as [|? ? (c & w & X & _) C']; subst.
  cbn [after]. unfold onward. rewrite X. exact (IH far C').
Qed.

Lemma told_onward k far : told k -> onward far k = k_break k.
Proof. intros [W _|X|X|s X|X]; unfold onward; [destruct (k_sym k); try reflexivity; discriminate W|rewrite X; reflexivity..]. Qed.

Definition ahead_of (k : tok) (ks : list tok) : ahead := Ahead (Token (k_sym k) (k_blank k) (k_text k) (written ks [])).

Definition poised (far : bool) (stk : stack) (la : option ahead) (ks : list tok) : Prop :=
  (la = None /\ (far = true -> eats (state stk) = true)) \/
  match ks with [] => False | k :: ks' => la = Some (ahead_of k ks') end.

Lemma written_cons k ks e : written (k :: ks) e = k_blank k ++ k_text k ++ written ks e.
Proof. unfold written. cbn [flat_map]. rewrite <- !app_assoc. reflexivity. Qed.

Lemma written_app ks ks' e : written (ks ++ ks') e = written ks (written ks' e).
Proof. unfold written. rewrite flat_map_app, <- app_assoc. reflexivity. Qed.

Lemma look far stk la k ks :
  k_sym k <> T_comment -> settled far (k :: ks) -> poised far stk la (k :: ks) -> state stk <> 0%N -> state stk <> 335%N ->
  allows (state stk) (k_sym k) = true ->
  match la with Some a => a | None => lex_in (state stk) (written (k :: ks) []) end = ahead_of k ks.
Proof.
  intros Nc (G & S0 & _) [[-> O]| ->] Z Z' A; [|reflexivity]. rewrite written_cons. unfold ahead_of.
  destruct S0 as [[[T|(? & ? & X & _)] Ap]|(X & W & R)]; [|contradiction|].
  - exact (tok_found _ far k _ Z A O G T Ap).
  - rewrite X in A. rewrite X, W, R, !app_nil_r. exact (end_found _ far _ Z Z' A O G).
Qed.

Lemma allows_action s x a : first_action (actions s x) = Some a -> allows s x = true.
Proof. unfold allows. destruct (actions s x); [discriminate|reflexivity]. Qed.

Lemma told_no_comment k : told k -> k_sym k <> T_comment.
Proof. intros [W _|X|X|s X|X] E; try congruence. rewrite E in W. discriminate. Qed.

Lemma shift_step far stk la k ks s :
  settled far (k :: ks) -> poised far stk la (k :: ks) -> state stk <> 0%N -> told k ->
  first_action (actions (state stk) (k_sym k)) = Some (Shift s) ->
  advance stk la (written (k :: ks) []) = Next ((s, Leaf (k_sym k) (k_blank k) (k_text k) false) :: stk) None (written ks []).
Proof.
  intros S0 P Z T A. unfold advance. cbv zeta. rewrite (look far stk la k ks (told_no_comment _ T) S0 P Z); [| |exact (allows_action _ _ _ A)].
  - unfold ahead_of. cbn [t_sym t_blank t_text t_rest]. rewrite A. reflexivity.
  - intros E. rewrite E in A. assert (H : forall x, x <> T_end -> actions 335 x = []).
    { intros x N. pose proof (every_sym (fun x => sym_eqb x T_end || match actions 335 x with [] => true | _ => false end) eq_refl x) as C.
      cbv beta in C. apply orb_true_iff in C as [C|C]; [apply sym_eqb_eq in C; contradiction|].
      destruct (actions 335 x); [reflexivity|discriminate]. }
    rewrite H in A; [discriminate|]. intros X. destruct T as [W _|Y|Y|s0 Y|Y]; try congruence. rewrite X in W. discriminate.
Qed.

(** Extra trees on top of a stack. *)
Definition push (es : list tree) (stk : stack) : stack := rev (map (fun e => (state stk, e)) es) ++ stk.

Lemma push_cons e es stk : push (e :: es) stk = push es ((state stk, e) :: stk).
Proof. unfold push. cbn [map rev state]. rewrite <- app_assoc. reflexivity. Qed.

Lemma push_state es : forall stk, state (push es stk) = state stk.
Proof. induction es as [|e es IH]; intros stk; [reflexivity|]. rewrite push_cons, IH. reflexivity. Qed.

Lemma push_top es stk : exists top, push es stk = top ++ stk /\ map snd top = rev es.
Proof.
  exists (rev (map (fun e => (state stk, e)) es)). split; [reflexivity|]. rewrite map_rev, map_map. cbn [snd]. rewrite map_id. reflexivity.
Qed.

Lemma notes_steps ms : forall far stk ks,
  comments ms -> noted (state stk) = true -> settled far (ms ++ ks) -> (far = true -> eats (state stk) = true) ->
  steps stk None (written (ms ++ ks) []) (push (map note ms) stk) None (written ks []).
Proof.
  induction ms as [|k ms IH]; intros far stk ks C N S0 O; [apply steps_none|].
  inversion C as [|? ? Ck C']; subst. cbn [app settled] in S0. destruct S0 as (G & Sk & S1).
  assert (Ap : apart k (written (ms ++ ks) [])).
  { destruct Sk as [[_ Ap]|(X & _)]; [exact Ap|]. destruct Ck as (? & ? & X' & _). congruence. }
  destruct (note_found _ far k _ N O G Ck Ap) as [L A]. cbn [app map]. rewrite push_cons, written_cons.
  eapply steps_one; [|apply (IH far ((state stk, note k) :: stk)); try assumption].
  - unfold advance. cbv zeta. rewrite L. cbn [t_sym t_blank t_text t_rest]. rewrite A. reflexivity.
  - destruct Ck as (? & ? & X & _). unfold onward in S1. rewrite X in S1. exact S1.
Qed.

Lemma pop_all top : forall stk acc,
  (exists c cs, rev (map snd top) = c :: cs /\ solid c = true) ->
  pop (length (filter solid (map snd top))) (top ++ stk) acc = Some (rev (map snd top) ++ acc, stk).
Proof.
  induction top as [|[s t] top IH]; intros stk acc (c & cs & E & Sc); [discriminate|].
  cbn [app map snd rev filter] in *.
  assert (H : top = [] \/ exists c cs, rev (map snd top) = c :: cs /\ solid c = true).
  { destruct (rev (map snd top)) as [|d ds] eqn:R.
    - left. apply (f_equal (@length tree)) in R. rewrite rev_length, map_length in R. destruct top; [reflexivity|discriminate].
    - right. exists d, ds. split; [reflexivity|]. injection E as -> _. exact Sc. }
  destruct H as [->|H].
  - cbn [map rev app] in *. injection E as <- <-. rewrite Sc. cbn [filter length pop]. unfold solid in Sc. apply negb_true_iff in Sc. rewrite Sc.
    destruct stk; reflexivity.
  - pose proof (IH stk (t :: acc) H) as P. unfold solid at 1. destruct (extra t) eqn:Et; cbn [negb].
    + destruct H as (d & ds & R & Sd). destruct (length (filter solid (map snd top))) as [|n] eqn:L.
      { exfalso. assert (In d (filter solid (map snd top))) as I by (apply filter_In; split; [apply in_rev; rewrite R; left; reflexivity|exact Sd]).
        destruct (filter solid (map snd top)); [destruct I|discriminate]. }
      cbn [pop]. rewrite Et, P, <- app_assoc. reflexivity.
    + cbn [length pop]. rewrite Et, P, <- app_assoc. reflexivity.
Qed.

Lemma split_extras_all es : forallb extra es = true -> split_extras es = ([], es).
Proof. induction es as [|e es IH]; [reflexivity|]. cbn [forallb split_extras]. intros H. apply andb_true_iff in H as [E H]. rewrite (IH H), E. reflexivity. Qed.

Lemma split_extras_some cs es c : forallb extra es = true -> solid c = true -> split_extras ((cs ++ [c]) ++ es) = (cs ++ [c], es).
Proof.
  intros H Sc. induction cs as [|d cs IH].
  - cbn [app split_extras]. rewrite (split_extras_all _ H). unfold solid in Sc. apply negb_true_iff in Sc. rewrite Sc. reflexivity.
  - cbn [app split_extras] in *. rewrite IH. destruct cs; reflexivity.
Qed.

Lemma reduce_all x p top stk cs ms n :
  map snd top = rev (cs ++ map note ms) -> length (filter solid cs) = n ->
  (exists c cs', cs = c :: cs' /\ solid c = true) -> (exists c cs', cs = cs' ++ [c] /\ solid c = true) ->
  reduce x n p false (top ++ stk) = Some (push (map note ms) ((goto (state stk) x, Node x p cs false) :: stk)).
Proof.
  intros M L (c & cs' & E & Sc) (d & ds & E' & Sd). unfold reduce.
  assert (R : rev (map snd top) = cs ++ map note ms) by (rewrite M, rev_involutive; reflexivity).
  replace n with (length (filter solid (map snd top))).
  - rewrite pop_all.
    + rewrite R, app_nil_r. rewrite E' at 1. rewrite (split_extras_some ds (map note ms) d).
      * rewrite <- E'. reflexivity.
      * clear. induction ms; [reflexivity|]. exact IHms.
      * exact Sd.
    + rewrite R, E. exists c, (cs' ++ map note ms). auto.
  - rewrite <- L, M. rewrite <- (rev_length (filter solid (rev (cs ++ map note ms)))).
    assert (F : forall l : list tree, rev (filter solid (rev l)) = filter solid l).
    { clear. induction l as [|a l IH]; [reflexivity|]. cbn [rev filter]. rewrite filter_app, rev_app_distr. cbn [filter].
      destruct (solid a); cbn [rev app]; rewrite IH; reflexivity. }
    rewrite F, filter_app, solid_notes, app_nil_r. reflexivity.
Qed.

Lemma reduces_action q xs x n p y : reduces q xs x n p = true -> In y xs -> first_action (actions q y) = Some (Reduce x n p).
Proof.
  unfold reduces. cbv zeta. intros R I. rewrite forallb_forall in R. specialize (R y I). unfold actions.
  destruct (first_action _) as [[| | |x' n' p'| |]|]; try discriminate. apply andb_true_iff in R as [R P].
  apply andb_true_iff in R as [X L]. apply sym_eqb_eq in X. apply Nat.eqb_eq in L. apply N.eqb_eq in P. subst. reflexivity.
Qed.

Definition next_in (ks : list tok) (xs : list sym) : Prop :=
  match ks with [] => False | k :: _ => In (k_sym k) xs end.

Lemma fine_shape c p x f :
  In x (befores_of c p) -> In f (shapes c) ->
  exists xs, In x xs /\ runs f p xs = Some (goto p (top c)).
Proof.
  unfold befores_of, lookup. intros I F.
  destruct (find (fun e => cat_eqb c (fst e)) fine_table) as [[d l]|] eqn:E; [|destruct I].
  apply find_some in E as [J E]. cbn [fst] in E. unfold cat_eqb in E. destruct (cat_eq_dec c d) as [<-|]; [|discriminate].
  destruct (find (fun e => N.eqb p (fst e)) l) as [[p' xs]|] eqn:E'; [|destruct I].
  apply find_some in E' as [J' E']. cbn [fst] in E'. apply N.eqb_eq in E'. subst p'.
  pose proof fine_check as C. rewrite forallb_forall in C. specialize (C _ J). unfold fine in C.
  rewrite forallb_forall in C. specialize (C _ J'). cbn [fst snd] in C. apply andb_true_iff in C as [_ C].
  rewrite forallb_forall in C. specialize (C _ F). exists xs. split; [exact I|].
  destruct (runs f p xs); [|discriminate]. apply N.eqb_eq in C. subst. reflexivity.
Qed.

Definition plain_next (ks : list tok) : Prop := match ks with [] => False | k :: _ => k_sym k <> T_comment end.

Lemma poised_far far far' stk la ks : far = far' -> poised far stk la ks -> poised far' stk la ks.
Proof. intros ->. auto. Qed.

Theorem matches_steps :
  (forall f t ks, matches f t ks ->
     forall stk far la ms ks' xs q,
       runs f (state stk) xs = Some q -> comments ms -> next_in ks' xs -> plain_next ks' ->
       settled far (ks ++ ms ++ ks') -> poised far stk la (ks ++ ms ++ ks') ->
       exists la', steps stk la (written (ks ++ ms ++ ks') []) (push (map note ms) ((q, t) :: stk)) la' (written ks' []) /\
                   poised (after far ks) (push (map note ms) ((q, t) :: stk)) la' ks') /\
  (forall l cs ks, matches_all l cs ks -> l <> [] ->
     forall stk far la ms ks' xs q,
       run_all runs xs l (state stk) = Some q -> comments ms -> next_in ks' xs -> plain_next ks' ->
       settled far (ks ++ ms ++ ks') -> poised far stk la (ks ++ ms ++ ks') ->
       exists la' top, steps stk la (written (ks ++ ms ++ ks') []) (top ++ stk) la' (written ks' []) /\
                   map snd top = rev (cs ++ map note ms) /\ state (top ++ stk) = q /\
                   poised (after far ks) (top ++ stk) la' ks').
Proof.
  apply matches_both.
  - intros x brk k X B T stk far la ms ks' xs q R C N Pn S0 P. cbn [runs] in R. subst x brk.
    destruct (first_action (actions (state stk) (k_sym k))) as [[s| | | | |]|] eqn:A; try discriminate.
    destruct (negb (k_break k) || eats s) eqn:Br; [|discriminate]. destruct (N.eqb (state stk) 0) eqn:Z; [discriminate|].
    cbn in R. injection R as <-. apply N.eqb_neq in Z. exists None.
    assert (Ea : onward far k = true -> eats s = true).
    { rewrite (told_onward _ far T). intros Fa. rewrite Fa in Br. exact Br. }
    split.
    + eapply steps_one; [exact (shift_step far stk la k (ms ++ ks') s S0 P Z T A)|].
      apply (notes_steps ms (onward far k)); [exact C| |exact (proj2 (proj2 S0))|exact Ea].
      cbn [state]. apply (shift_noted (state stk) (k_sym k)); [| |exact A]; intros X; destruct T as [T1 T|Y|Y|s0 Y|Y]; try congruence.
      rewrite X in T1. discriminate.
    + left. split; [reflexivity|]. rewrite push_state. cbn [after state]. exact Ea.
  - intros c f t ks I M IH stk far la ms ks' xs q R C N Pn S0 P. cbn [runs] in R. cbv zeta in R.
    destruct (forallb _ xs) eqn:F; [|discriminate]. injection R as <-. destruct ks' as [|k' ks']; [destruct N|].
    cbn [next_in] in N. rewrite forallb_forall in F. specialize (F _ N). apply member_in in F.
    destruct (fine_shape _ _ _ _ F I) as (ys & Iy & Ry). exact (IH stk far la ms (k' :: ks') ys _ Ry C Iy Pn S0 P).
  - intros x l cs ks L M IH stk far la ms ks' xs q R C N Pn S0 P. cbn [runs] in R.
    destruct (run_all runs xs l (state stk)) as [q0|] eqn:E; [|discriminate].
    destruct (reduces q0 xs x (length l) _) eqn:Rd; [|discriminate].
    destruct (N.eqb q0 0) eqn:Z; [discriminate|]. destruct (N.eqb q0 335) eqn:Z'; [discriminate|].
    apply N.eqb_neq in Z. apply N.eqb_neq in Z'. destruct l as [|f l]; [contradiction|]. cbn in R. injection R as <-.
    destruct (IH L stk far la ms ks' xs q0 E C N Pn S0 P) as (la' & top & St & Mp & Sq & Po).
    destruct ks' as [|k' ks']; [destruct N|]. cbn [next_in] in N. rewrite <- Sq in Z, Z', Rd.
    pose proof (reduces_action _ _ _ _ _ _ Rd N) as A.
    destruct (proj2 matches_extra _ _ _ M) as [Le Ex]. destruct (Ex L) as [Ex1 Ex2].
    exists (Some (ahead_of k' ks')). split; [|right; reflexivity].
    eapply steps_trans; [exact St|]. eapply steps_one; [|apply steps_none].
    assert (S1 : settled (after far ks) (k' :: ks')).
    { rewrite app_assoc in S0. apply settled_after in S0. rewrite after_app, (after_comments _ _ C) in S0. exact S0. }
    unfold advance. cbv zeta. rewrite (look (after far ks) (top ++ stk) la' k' ks' Pn S1 Po Z Z' (allows_action _ _ _ A)).
    unfold ahead_of at 1. cbn [t_sym]. rewrite A. rewrite (reduce_all _ _ _ _ _ _ _ Mp Le Ex1 Ex2). reflexivity.
  - intros H. contradiction.
  - intros f t ks l cs ks' M IH Ms IHs _ stk far la ms ks2 xs q R C N Pn S0 P. cbn [run_all] in R.
    destruct (runs f (state stk) _) as [q'|] eqn:E; [|discriminate].
    destruct l as [|g l].
    + inversion Ms; subst. rewrite app_nil_r in *. cbn [run_all] in R. injection R as <-.
      destruct (IH stk far la ms ks2 xs q' E C N Pn S0 P) as (la1 & St1 & P1).
      destruct (push_top (map note ms) ((q', t) :: stk)) as (top & Et & Em).
      exists la1, (top ++ [(q', t)]). rewrite <- app_assoc. cbn [app]. rewrite <- Et.
      split; [exact St1|]. split; [rewrite map_app, Em; reflexivity|]. split; [rewrite push_state; reflexivity|exact P1].
    + rewrite <- app_assoc in *.
      pose proof (proj2 first_token _ _ _ Ms) as (k & ks0 & Ek & F & Tk).
      destruct (IH stk far la [] (ks' ++ ms ++ ks2) _ q' E (Forall_nil _)) as (la1 & St1 & P1);
        [rewrite Ek; exact F| |exact S0|exact P|].
      { rewrite Ek. cbn [app plain_next]. exact (told_no_comment _ Tk). }
      cbn [map app] in St1, P1. change (push [] ((q', t) :: stk)) with ((q', t) :: stk) in *.
      destruct (IHs ltac:(discriminate) ((q', t) :: stk) (after far ks) la1 ms ks2 xs q) as (la2 & top & St2 & Mp & Sq & P2);
        [exact R|exact C|exact N|exact Pn|exact (settled_after _ _ _ S0)|exact P1|].
      exists la2, (top ++ [(q', t)]). rewrite <- app_assoc. cbn [app]. split; [exact (steps_trans _ _ _ _ _ _ _ _ _ St1 St2)|].
      split; [rewrite map_app, Mp; reflexivity|]. split; [exact Sq|]. rewrite after_app. exact P2.
  - intros f t ks ns l cs ks' M IH Cn Nl Ms IHs _ stk far la ms ks2 xs q R C N Pn S0 P. cbn [run_all] in R.
    destruct (runs f (state stk) _) as [q'|] eqn:E; [|discriminate].
    replace ((ks ++ ns ++ ks') ++ ms ++ ks2) with (ks ++ ns ++ ks' ++ ms ++ ks2) in * by (rewrite <- !app_assoc; reflexivity).
    destruct l as [|g l]; [contradiction|].
    pose proof (proj2 first_token _ _ _ Ms) as (k & ks0 & Ek & F & Tk).
    destruct (IH stk far la ns (ks' ++ ms ++ ks2) _ q' E Cn) as (la1 & St1 & P1);
      [rewrite Ek; exact F| |exact S0|exact P|].
    { rewrite Ek. cbn [app plain_next]. exact (told_no_comment _ Tk). }
    destruct (push_top (map note ns) ((q', t) :: stk)) as (top1 & Et & Em).
    destruct (IHs Nl (push (map note ns) ((q', t) :: stk)) (after far ks) la1 ms ks2 xs q) as (la2 & top & St2 & Mp & Sq & P2);
      [rewrite push_state; exact R|exact C|exact N|exact Pn| |exact P1|].
    { rewrite app_assoc in S0. apply settled_after in S0. rewrite after_app, (after_comments _ _ Cn) in S0. exact S0. }
    rewrite Et in *. exists la2, (top ++ top1 ++ [(q', t)]). replace ((top ++ top1 ++ [(q', t)]) ++ stk) with (top ++ top1 ++ (q', t) :: stk) by (rewrite <- !app_assoc; reflexivity).
    split; [exact (steps_trans _ _ _ _ _ _ _ _ _ St1 St2)|].
    split; [|split; [exact Sq|]].
    + rewrite !map_app, Mp, Em. cbn [map snd rev app]. rewrite <- app_assoc, !rev_app_distr. cbn [rev app]. rewrite <- !app_assoc. reflexivity.
    + rewrite app_assoc, !after_app. rewrite (after_comments _ _ Cn). exact P2.
Qed.

(** ** The whole text *)

Definition the_end (e : bytes) : tok := Tok T_end e [] false.

Definition known (k : tok) : Prop := told k \/ comment_is k.

Lemma laid_settled ks : forall far e, laid far ks e -> Forall known ks -> settled far (ks ++ [the_end e]).
Proof.
  induction ks as [|k ks IH]; intros far e; cbn [laid app settled].
  - intros G _. split; [exact G|]. split; [right; repeat split|exact Logic.I].
  - intros (G & Ap & L) F. inversion F; subst. split; [exact G|]. split; [|auto].
    left. split; [assumption|]. rewrite written_app. unfold the_end. rewrite written_cons. cbn [k_blank k_text app].
    unfold written at 2. cbn [flat_map app]. rewrite app_nil_r. exact Ap.
Qed.

Lemma written_end ks e : written (ks ++ [the_end e]) [] = written ks e.
Proof. rewrite written_app, written_cons. cbn [k_blank k_text the_end app]. unfold written at 2. cbn [flat_map app]. rewrite app_nil_r. reflexivity. Qed.

Lemma comments_known ms : comments ms -> Forall known ms.
Proof. intros C. eapply Forall_impl; [|exact C]. intros k H. right. exact H. Qed.

Lemma matches_known : (forall f t ks, matches f t ks -> Forall known ks) /\
  (forall l cs ks, matches_all l cs ks -> Forall known ks).
Proof.
  apply matches_both; auto.
  - intros x brk k _ _ T. constructor; [left; exact T|constructor].
  - intros f t ks l cs ks' _ A _ B. apply Forall_app. auto.
  - intros f t ks ms l cs ks' _ A C _ _ B. apply Forall_app. split; [exact A|]. apply Forall_app. split; [|exact B].
    exact (comments_known _ C).
Qed.

Lemma turns_steps fuel : forall stk la t stk' la' t',
  steps stk la t stk' la' t' -> turns fuel stk la t <> NoFuel ->
  exists fuel', turns fuel stk la t = turns fuel' stk' la' t' /\ turns fuel' stk' la' t' <> NoFuel.
Proof.
  induction fuel as [|fuel IH]; intros stk la t stk' la' t' St N; [contradiction|].
  inversion St as [|? ? ? stk1 la1 t1 ? ? ? A St1]; subst.
  - exists (S fuel). auto.
  - cbn [turns] in *. rewrite A in *. exact (IH _ _ _ _ _ _ St1 N).
Qed.

Lemma parse_fuel_enough t : parse t <> NoFuel.
Proof. destruct (parse_ends t) as [[r ->]| ->]; discriminate. Qed.

Lemma told_first k : told k -> exists c w, k_text k = c :: w /\ N_of_ascii c <> 239%N.
Proof.
  intros [W P|X N NW|X N D|u X E Q|X N L].
  - destruct (k_sym k); try discriminate W; injection W as <-; eexists _, _; (split; [reflexivity|]); vm_compute; discriminate.
  - destruct (k_text k) as [|c w]; [discriminate|]. exists c, w. split; [reflexivity|]. cbn [is_name] in N.
    apply andb_true_iff in N as [N _]. intros E. unfold letter, between in N.
    assert (c = ascii_of_N 239) as -> by (rewrite <- E, ascii_N_embedding; reflexivity). vm_compute in N. discriminate.
  - destruct (k_text k) as [|c w]; [contradiction|]. exists c, w. split; [reflexivity|]. cbn [forallb] in D.
    apply andb_true_iff in D as [D _]. intros E.
    assert (c = ascii_of_N 239) as -> by (rewrite <- E, ascii_N_embedding; reflexivity). vm_compute in D. discriminate.
  - rewrite E. eexists _, _. split; [reflexivity|]. vm_compute. discriminate.
  - destruct (k_text k) as [|c w]; [contradiction|]. exists c, w. split; [reflexivity|]. cbn [forallb] in L.
    apply andb_true_iff in L as [D _]. intros E.
    assert (c = ascii_of_N 239) as -> by (rewrite <- E, ascii_N_embedding; reflexivity). vm_compute in D. discriminate.
Qed.

Lemma blank_first c : blank c = true -> N_of_ascii c <> 239%N.
Proof.
  intros D E. assert (c = ascii_of_N 239) as -> by (rewrite <- E, ascii_N_embedding; reflexivity). vm_compute in D. discriminate.
Qed.

Lemma drop_none t : match t with [] => True | c :: _ => N_of_ascii c <> 239%N end -> drop_mark t = t.
Proof.
  intros H. unfold drop_mark. destruct t as [|a [|b [|c t]]]; try reflexivity. apply N.eqb_neq in H. rewrite H. reflexivity.
Qed.

Lemma known_first k : known k -> exists c w, k_text k = c :: w /\ N_of_ascii c <> 239%N.
Proof.
  intros [T|(c & w & _ & -> & _)]; [exact (told_first k T)|]. eexists _, _. split; [reflexivity|]. vm_compute. discriminate.
Qed.

Lemma no_mark ks e : laid true ks e -> Forall known ks -> drop_mark (written ks e) = written ks e.
Proof.
  intros L F. apply drop_none. destruct ks as [|k ks].
  - cbn [laid gap] in L. unfold written. cbn [flat_map app]. destruct e as [|c e]; [exact Logic.I|].
    cbn [forallb] in L. apply andb_true_iff in L as [B _]. exact (blank_first _ B).
  - rewrite written_cons. cbn [laid gap] in L. destruct L as (G & _). inversion F as [|? ? T _]; subst.
    destruct (k_blank k) as [|c b].
    + destruct (known_first k T) as (c & w & -> & H). exact H.
    + cbn [forallb] in G. apply andb_true_iff in G as [B _]. exact (blank_first _ B).
Qed.

Lemma split_last_none es : forallb extra es = true -> split_last es = None.
Proof. induction es as [|e es IH]; [reflexivity|]. cbn [forallb split_last]. intros H. apply andb_true_iff in H as [E H]. rewrite (IH H), E. reflexivity. Qed.

Lemma split_last_some a t b : forallb extra b = true -> solid t = true -> split_last (a ++ t :: b) = Some (a, t, b).
Proof.
  intros B St. unfold solid in St. apply negb_true_iff in St. induction a as [|d a IH]; cbn [app split_last].
  - rewrite (split_last_none _ B), St. reflexivity.
  - rewrite IH. reflexivity.
Qed.

Lemma notes_extra ms : forallb extra (map note ms) = true.
Proof. induction ms; [reflexivity|]. exact IHms. Qed.

Lemma push_trees es stk : rev (map snd (push es stk)) = rev (map snd stk) ++ es.
Proof. destruct (push_top es stk) as (top & -> & M). rewrite map_app, rev_app_distr, M, rev_involutive. reflexivity. Qed.

(** A text that is laid out by the grammar is read as its tree, with the comments around it and the end of the text as
    further children. *)
Theorem reads t cs ms ks ns e :
  matches (Ct CSource) t ks -> comments ms -> comments ns -> laid true (ms ++ ks ++ ns) e ->
  t = Node N_source_file 0 cs false ->
  parse (written (ms ++ ks ++ ns) e) =
  Parsed (Node N_source_file 0 (map note ms ++ cs ++ map note ns ++ [Leaf T_end e [] true]) false).
Proof.
  intros M Cm Cn L ->. pose proof (proj1 matches_known _ _ _ M) as Td.
  assert (Kn : Forall known (ms ++ ks ++ ns)).
  { apply Forall_app. split; [exact (comments_known _ Cm)|]. apply Forall_app. split; [exact Td|exact (comments_known _ Cn)]. }
  pose proof (laid_settled _ _ _ L Kn) as S0.
  pose proof (parse_fuel_enough (written (ms ++ ks ++ ns) e)) as NF. unfold parse in *. rewrite (no_mark _ _ L Kn) in *.
  rewrite <- !app_assoc in S0.
  assert (St0 : steps [] None (written (ms ++ ks ++ ns ++ [the_end e]) []) (push (map note ms) []) None (written (ks ++ ns ++ [the_end e]) [])).
  { apply (notes_steps ms true); [exact Cm|vm_compute; reflexivity|exact S0|intros _; vm_compute; reflexivity]. }
  apply settled_after in S0. rewrite (after_comments _ _ Cm) in S0.
  destruct (proj1 matches_steps _ _ _ M (push (map note ms) []) true None ns [the_end e] [T_end] 327%N) as (la & St & P).
  - rewrite push_state. vm_compute. reflexivity.
  - exact Cn.
  - left. reflexivity.
  - discriminate.
  - exact S0.
  - left. split; [reflexivity|]. intros _. rewrite push_state. vm_compute. reflexivity.
  - pose proof (steps_trans _ _ _ _ _ _ _ _ _ St0 St) as St1.
    replace (ms ++ ks ++ ns ++ [the_end e]) with ((ms ++ ks ++ ns) ++ [the_end e]) in St1 by (rewrite <- !app_assoc; reflexivity).
    rewrite written_end in St1. destruct (turns_steps _ _ _ _ _ _ _ St1 NF) as (fuel & -> & NF').
    destruct fuel as [|fuel]; [contradiction|]. cbn [turns]. clear NF NF' St St0 St1.
    assert (S1 : settled (after true ks) [the_end e]).
    { rewrite app_assoc in S0. apply settled_after in S0. rewrite after_app, (after_comments _ _ Cn) in S0. exact S0. }
    unfold advance. cbv zeta. assert (Ne : k_sym (the_end e) <> T_comment) by discriminate.
    rewrite (look _ _ _ _ _ Ne S1 P); [|rewrite push_state; discriminate..|rewrite push_state; reflexivity].
    unfold ahead_of. cbn [t_sym t_blank t_text t_rest the_end k_sym k_blank k_text]. rewrite push_state. cbn [state].
    change (first_action (actions 327 T_end)) with (Some Accept). cbv iota.
    unfold accept. rewrite push_trees. cbn [map snd rev]. rewrite push_trees. cbn [map rev app]. rewrite <- !app_assoc. cbn [app].
    rewrite split_last_some; [reflexivity| |reflexivity].
    rewrite forallb_app, notes_extra. reflexivity.
Qed.

Theorem reads_nothing ms e : comments ms -> laid true ms e ->
  parse (written ms e) = Parsed (Node N_source_file 0 (map note ms ++ [Leaf T_end e [] true]) false).
Proof.
  intros C L. pose proof (laid_settled ms true e L (comments_known _ C)) as S0.
  pose proof (parse_fuel_enough (written ms e)) as NF. unfold parse in *. rewrite (no_mark _ _ L (comments_known _ C)) in *.
  assert (St0 : steps [] None (written (ms ++ [the_end e]) []) (push (map note ms) []) None (written [the_end e] [])).
  { apply (notes_steps ms true); [exact C|vm_compute; reflexivity|exact S0|intros _; vm_compute; reflexivity]. }
  rewrite written_end in St0. destruct (turns_steps _ _ _ _ _ _ _ St0 NF) as (fuel & -> & NF').
  apply settled_after in S0. rewrite (after_comments _ _ C) in S0.
  assert (P : poised true (push (map note ms) []) None [the_end e]) by (left; split; [reflexivity|intros _; rewrite push_state; vm_compute; reflexivity]).
  destruct fuel as [|fuel]; [contradiction|]. cbn [turns] in *. clear NF.
  unfold advance in *. cbv zeta in *. assert (Ne : k_sym (the_end e) <> T_comment) by discriminate.
  rewrite (look _ _ _ _ _ Ne S0 P) in *; try (rewrite push_state; first [discriminate|reflexivity]).
  unfold ahead_of in *. cbn [t_sym the_end k_sym] in *. rewrite push_state in *. cbn [state] in *.
  change (first_action (actions 1 T_end)) with (Some (Reduce N_source_file 0 0)) in *. cbv iota in *.
  unfold reduce in *. cbn [pop split_extras] in *.
  assert (Pp : pop 0 (push (map note ms) []) [] = Some ([], push (map note ms) [])) by (destruct (push (map note ms) []); reflexivity).
  rewrite Pp in *. cbn [split_extras map rev app] in *. rewrite push_state in *. cbn [state] in *.
  change (goto 1 N_source_file) with 327%N in *.
  destruct fuel as [|fuel]; [contradiction|]. cbn [turns] in *. unfold advance. cbv zeta iota beta. cbn [t_sym state].
  change (first_action (actions 327 T_end)) with (Some Accept). cbv iota.
  unfold accept. cbn [map snd rev]. rewrite push_trees. cbn [map rev app]. rewrite <- app_assoc. cbn [app].
  rewrite split_last_some; reflexivity.
Qed.
