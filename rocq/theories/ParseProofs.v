(** * The trees of the parser: what they contain, how they are built, and that parsing ends. *)

From Coq Require Import NArith Arith Ascii String Lia Bool List.
From Verif Require Import Base FlTables FlParse SpecLex LexProofs SpecGrammar.
Import ListNotations.
Local Open Scope nat_scope.

(** ** The moves between the states *)

(** From [s] over the symbol [x] to [s']; "##" comments stay where they are. *)
Definition edge (s : N) (x : sym) (s' : N) : Prop :=
  s <> 0%N /\ (In (Shift s') (actions s x) \/ x <> N_doc_comment /\ goto s x = s' /\ s' <> 0%N).

Definition shifts (l : list action) : list N := flat_map (fun a => match a with Shift k => [k] | _ => [] end) l.

Definition edges_from (s : N) : list (sym * N) :=
  flat_map (fun x => map (pair x) (shifts (actions s x) ++ 
                   if sym_eqb x N_doc_comment then [] else match goto s x with 0%N => [] | k => [k] end)) all_syms.

Lemma edge_listed s x s' : edge s x s' -> In (x, s') (edges_from s).
Proof.
  intros E. unfold edges_from. apply in_flat_map. exists x. split; [apply all_syms_complete|].
  apply in_map, in_or_app. destruct E as (_ & [E|(D & E & Z)]).
  - left. unfold shifts. apply in_flat_map. exists (Shift s'). split; [exact E|left; reflexivity].
  - right. destruct (sym_eqb x N_doc_comment) eqn:X; [apply sym_eqb_eq in X; contradiction|].
    rewrite E. destruct s'; [contradiction|left; reflexivity].
Qed.

Definition real_rows : list N := map N.of_nat (seq 1 335).

Definition all_edges : list (N * list (sym * N)) := map (fun s => (s, edges_from s)) real_rows.

Definition no_actions s : (336 <= s)%N -> (forall x, actions s x = []) /\ (forall x, goto s x = 0%N).
Proof.
  intros L. assert (R : row s = ([], [])).
  { unfold row. apply nth_overflow. change (length rows) with 336. lia. }
  split; intros x; unfold actions, goto; rewrite R; reflexivity.
Qed.

Lemma edge_row s x s' : edge s x s' -> In s real_rows.
Proof.
  intros E. destruct (N.ltb s 336) eqn:L.
  - apply N.ltb_lt in L. destruct E as (Z & _). unfold real_rows. rewrite <- (N2Nat.id s). apply in_map, in_seq. lia.
  - apply N.ltb_ge in L. destruct (no_actions _ L) as [A G]. destruct E as (_ & [E|(_ & E & Z)]).
    + rewrite A in E. destruct E.
    + rewrite G in E. congruence.
Qed.

(** The states before a state, with the symbols that lead from them to it. *)
Definition before (s : N) : list (sym * N) :=
  flat_map (fun e => flat_map (fun f => if N.eqb (snd f) s then [(fst f, fst e)] else []) (snd e)) all_edges.

Lemma edge_before s x s' : edge s x s' -> In (x, s) (before s').
Proof.
  intros E. unfold before. apply in_flat_map. exists (s, edges_from s). split.
  - unfold all_edges. apply (in_map (fun s => (s, edges_from s))). exact (edge_row _ _ _ E).
  - apply in_flat_map. exists (x, s'). split; [exact (edge_listed _ _ _ E)|]. cbn. rewrite N.eqb_refl. left. reflexivity.
Qed.

Definition before_table : list (list (sym * N)) := Eval vm_compute in map before all_rows.

Lemma before_table_eq : before_table = map before all_rows.
Proof. vm_compute. reflexivity. Qed.

Definition befores (s : N) : list (sym * N) := nth (N.to_nat s) before_table [].

Lemma edge_target_check :
  forallb (fun e => forallb (fun f => N.ltb (snd f) 336) (snd e)) all_edges = true.
Proof. vm_compute. reflexivity. Qed.

Lemma edge_befores s x s' : edge s x s' -> In (x, s) (befores s').
Proof.
  intros E. assert (L : (s' < 336)%N).
  { pose proof edge_target_check as C. rewrite forallb_forall in C.
    specialize (C (s, edges_from s)). rewrite forallb_forall in C.
    apply N.ltb_lt. apply (C (in_map (fun s => (s, edges_from s)) _ _ (edge_row _ _ _ E)) (x, s')).
    exact (edge_listed _ _ _ E). }
  unfold befores. rewrite before_table_eq.
  rewrite (nth_indep _ [] (before 0)) by (rewrite map_length; unfold all_rows; rewrite map_length, seq_length; lia).
  rewrite map_nth. unfold all_rows.
  replace (nth (N.to_nat s') (map N.of_nat (seq 0 336)) 0%N) with s'; [exact (edge_before _ _ _ E)|].
  symmetry. etransitivity; [exact (map_nth N.of_nat (seq 0 336) 0 (N.to_nat s'))|].
  rewrite seq_nth by lia. cbn. apply N2Nat.id.
Qed.

(** The states before a set of states, by symbol. *)
Definition back (ss : list N) : list (sym * list N) :=
  flat_map (fun x =>
    match flat_map (fun s => flat_map (fun f => if sym_eqb (fst f) x then [snd f] else []) (befores s)) ss with
    | [] => []
    | qs => [(x, nodup N.eq_dec qs)]
    end) all_syms.

Lemma edge_back q x s ss : edge q x s -> In s ss -> exists qs, In (x, qs) (back ss) /\ In q qs.
Proof.
  intros E I.
  set (qs := flat_map (fun s => flat_map (fun f => if sym_eqb (fst f) x then [snd f] else []) (befores s)) ss).
  assert (Q : In q qs).
  { subst qs. apply in_flat_map. exists s. split; [exact I|]. apply in_flat_map. exists (x, q).
    split; [exact (edge_befores _ _ _ E)|]. cbn [fst snd]. rewrite (proj2 (sym_eqb_eq x x) eq_refl). left. reflexivity. }
  exists (nodup N.eq_dec qs). split; [|apply nodup_In; exact Q].
  unfold back. apply in_flat_map. exists x. split; [apply all_syms_complete|].
  change (flat_map (fun s0 : N => _) ss) with qs. destruct qs as [|a l]; [destruct Q|]. left. reflexivity.
Qed.

(** ** Reducing fits *)

Definition word_eqb (v w : list sym) : bool := if list_eq_dec N.eq_dec (map code v) (map code w) then true else false.

Lemma map_code v : forall w, map code v = map code w -> v = w.
Proof.
  induction v as [|x v IH]; intros [|y w] E; try discriminate; [reflexivity|].
  injection E as E1 E2. f_equal; [|auto]. apply sym_eqb_eq. unfold sym_eqb. rewrite E1. apply N.eqb_refl.
Qed.

Lemma word_eqb_eq v w : word_eqb v w = true -> v = w.
Proof. unfold word_eqb. destruct (list_eq_dec _ _ _) as [E|]; [intros _; apply map_code, E|discriminate]. Qed.

(** From the states [ss], [n] symbols back with [v] after them: the symbols are a right hand side of [x], there are as
    many on the stack, and the state below has a place for [x]. *)
Fixpoint fits_back (x : sym) (n : nat) (ss : list N) (v : list sym) : bool :=
  match n with
  | O => existsb (word_eqb v) (grammar x) && forallb (fun s => negb (N.eqb (goto s x) 0)) ss
  | S m => negb (existsb (N.eqb 1) ss) && forallb (fun e => fits_back x m (snd e) (fst e :: v)) (back ss)
  end.

(** An action on some tokens. *)
Definition action_ok (s : N) (xs : list sym) (a : action) : bool :=
  match a with
  | Reduce y n _ =>
    fits_back y n [s] [] && (negb (sym_eqb y N_doc_comment) || (N.eqb s 335 && (n =? 2))) && (negb (n =? 0) || N.eqb s 1)
  | Accept =>
    forallb (fun x => sym_eqb x T_end) xs && negb (N.eqb s 1) &&
    forallb (fun e => sym_eqb (fst e) N_source_file && N.eqb (snd e) 1) (befores s)
  | ShiftExtra => forallb (fun x => sym_eqb x T_comment) xs
  | Shift k =>
    forallb (fun x => negb (sym_eqb x T_end) && (negb (N.eqb k 331) || sym_eqb x T_POUND_POUND) &&
                      (negb (sym_eqb x T_doc_comment_content) || (N.eqb s 331 && N.eqb k 335))) xs
  | _ => true
  end.

Definition goto_ok (s k : N) (x : sym) : bool :=
  (sym_eqb x N_doc_comment && N.eqb k s) ||
  (negb (sym_eqb x N_doc_comment) && negb (N.eqb k 335) && negb (N.eqb k 331)).

Definition parse_row_ok (s : N) : bool :=
  forallb (fun e => forallb (action_ok s (snd e)) (fst e)) (fst (row s)) &&
  forallb (fun e => forallb (goto_ok s (fst e)) (snd e)) (snd (row s)).

Lemma parse_rows_check : forallb parse_row_ok all_rows = true.
Proof. vm_compute. reflexivity. Qed.

Lemma entry_in {A} (l : list (A * list sym)) x a : entry l x = Some a -> exists xs, In (a, xs) l /\ In x xs.
Proof.
  induction l as [|[b ys] l IH]; cbn [entry]; [discriminate|].
  destruct (existsb (sym_eqb x) ys) eqn:E.
  - intros H. injection H as ->. exists ys. split; [left; reflexivity|].
    apply existsb_exists in E as (y & I & E). apply sym_eqb_eq in E. subst y. exact I.
  - intros H. destruct (IH H) as (xs & I & J). exists xs. split; [right; exact I|exact J].
Qed.

Lemma parse_row s : In s all_rows -> parse_row_ok s = true.
Proof. pose proof parse_rows_check as C. rewrite forallb_forall in C. apply C. Qed.

Lemma in_all_rows s : (s < 336)%N -> In s all_rows.
Proof. intros L. unfold all_rows. rewrite <- (N2Nat.id s). apply in_map, in_seq. lia. Qed.

Lemma action_fact s x a : In a (actions s x) -> exists xs, In x xs /\ action_ok s xs a = true.
Proof.
  intros I. destruct (N.ltb s 336) eqn:L.
  - apply N.ltb_lt in L. pose proof (parse_row _ (in_all_rows _ L)) as R.
    unfold parse_row_ok in R. apply andb_true_iff in R as [R _]. rewrite forallb_forall in R.
    unfold actions in I. destruct (entry (fst (row s)) x) as [l|] eqn:E; [|destruct I].
    destruct (entry_in _ _ _ E) as (xs & J & K). exists xs. split; [exact K|].
    specialize (R _ J). cbn [fst snd] in R. rewrite forallb_forall in R. exact (R _ I).
  - apply N.ltb_ge in L. rewrite (proj1 (no_actions _ L)) in I. destruct I.
Qed.

Lemma goto_fact s x : goto s x <> 0%N -> goto_ok s (goto s x) x = true.
Proof.
  intros Z. destruct (N.ltb s 336) eqn:L.
  - apply N.ltb_lt in L. pose proof (parse_row _ (in_all_rows _ L)) as R.
    unfold parse_row_ok in R. apply andb_true_iff in R as [_ R]. rewrite forallb_forall in R.
    unfold goto in *. destruct (entry (snd (row s)) x) as [k|] eqn:E; [|contradiction].
    destruct (entry_in _ _ _ E) as (xs & J & K).
    specialize (R _ J). cbn [fst snd] in R. rewrite forallb_forall in R. exact (R _ K).
  - apply N.ltb_ge in L. rewrite (proj2 (no_actions _ L)) in Z. contradiction.
Qed.

Lemma first_in l a : first_action l = Some a -> In a l.
Proof.
  induction l as [|b l IH]; cbn [first_action]; [discriminate|].
  destruct b; try (intros E; injection E as <-; left; reflexivity). intros E. right. auto.
Qed.

Lemma null_check :
  forallb (fun s => match lex_mode s with None => N.eqb s 335 | Some _ => negb (N.eqb s 335) end) all_rows = true.
Proof. vm_compute. reflexivity. Qed.

Lemma null_mode s : lex_mode s = None <-> s = 335%N.
Proof.
  destruct (N.ltb s 336) eqn:L.
  - apply N.ltb_lt in L. pose proof null_check as C. rewrite forallb_forall in C. specialize (C _ (in_all_rows _ L)).
    cbv beta in C. destruct (lex_mode s).
    + apply negb_true_iff, N.eqb_neq in C. split; [discriminate|contradiction].
    + apply N.eqb_eq in C. tauto.
  - apply N.ltb_ge in L. unfold lex_mode. rewrite nth_overflow; [split; [discriminate|lia]|].
    change (length lex_modes) with 336. lia.
Qed.

Lemma null_state s t : lex_in s t = NullAhead -> s = 335%N.
Proof.
  unfold lex_in. destruct (lex_mode s) eqn:E; [|intros _; apply null_mode, E].
  destruct (lex n t); try discriminate. destruct (lex 0 t); discriminate.
Qed.

Lemma null_action : first_action (actions 335 T_end) = Some (Reduce N_doc_comment 2 0).
Proof. vm_compute. reflexivity. Qed.

(** ** The end of the text *)

Lemma eof_state_check :
  forallb (fun k => forallb (fun c => match moves k [c] with
                                      | Some (Advance k') | Some (Skip k') => match accepts k' with Some T_end => false | _ => true end
                                      | None => true end) all_bytes &&
                    match accepts k with Some T_end => match moves k [] with None => true | _ => false end | _ => true end)
    all_states = true.
Proof. vm_compute. reflexivity. Qed.

Lemma byte_no_end k c r k' :
  moves k (c :: r) = Some (Advance k') \/ moves k (c :: r) = Some (Skip k') -> accepts k' <> Some T_end.
Proof.
  intros M A. rewrite (moves_head k c r []) in M. destruct (every_state _ eof_state_check k) as [[E _]|E].
  - unfold moves in M. rewrite E in M. destruct M; discriminate.
  - apply andb_true_iff in E as [E _]. pose proof (every_byte _ E c) as B. cbv beta in B.
    destruct M as [M|M]; rewrite M, A in B; discriminate.
Qed.

Lemma lex_run_end fuel : forall k t bl tk best b,
  (forall b, best = Some b -> t_sym b = T_end -> t_rest b = []) ->
  (accepts k = Some T_end -> t = []) ->
  lex_run fuel k t bl tk best = Found b -> t_sym b = T_end -> t_rest b = [].
Proof.
  induction fuel as [|fuel IH]; intros k t bl tk best b B0 K R X; [discriminate|].
  rewrite lex_run_step in R. cbv zeta in R.
  set (best' := match accepts k with Some x => _ | None => _ end) in *.
  assert (B1 : forall b, best' = Some b -> t_sym b = T_end -> t_rest b = []).
  { intros b' E Y. subst best'. destruct (accepts k) as [x|]; [|exact (B0 _ E Y)].
    injection E as <-. cbn in *. subst x. auto. }
  clearbody best'. destruct (moves k t) as [[k'|k']|] eqn:M.
  - destruct t as [|c t'].
    + exact (IH k' [] bl tk best' b B1 (fun _ => eq_refl) R X).
    + refine (IH k' t' _ _ best' b B1 _ R X). intros A. exfalso. exact (byte_no_end _ _ _ _ (or_introl M) A).
  - destruct t as [|c t'].
    + exact (IH k' [] _ _ best' b B1 (fun _ => eq_refl) R X).
    + refine (IH k' t' _ _ best' b B1 _ R X). intros A. exfalso. exact (byte_no_end _ _ _ _ (or_intror M) A).
  - destruct best' as [b'|]; [|discriminate]. injection R as ->. exact (B1 b eq_refl X).
Qed.

Lemma modes_no_end m : In m modes -> accepts m <> Some T_end.
Proof. intros I. repeat (destruct I as [<-|I]; [vm_compute; discriminate|]). destruct I. Qed.

Lemma lex_in_end s t b : lex_in s t = Ahead b -> t_sym b = T_end -> t_rest b = [].
Proof.
  unfold lex_in. destruct (lex_mode s) as [m|] eqn:E; [|discriminate].
  destruct (lex m t) as [k| |] eqn:L; [| |discriminate].
  - intros H. injection H as <-. refine (lex_run_end _ _ _ _ _ _ _ _ _ L); [discriminate|].
    intros A. destruct (modes_no_end _ (mode_in _ _ E) A).
  - destruct (lex 0 t) as [k| |] eqn:L0; try discriminate. intros H. injection H as <-.
    refine (lex_run_end _ _ _ _ _ _ _ _ _ L0); [discriminate|].
    intros A. vm_compute in A. discriminate.
Qed.

(** ** The stack *)

Definition token_ok (k : sym * bytes * bytes) : Prop :=
  forallb blank (snd (fst k)) = true /\ spelled (fst (fst k)) (snd k).

Definition good (t : tree) : Prop := by_the_rules t /\ Forall token_ok (tokens t).

Fixpoint linked (stk : stack) : Prop :=
  match stk with
  | [] => True
  | (s, t) :: stk' =>
    linked stk' /\ good t /\ if extra t then s = state stk' else edge (state stk') (root t) s
  end.

Definition trees (stk : stack) : list tree := rev (map snd stk).

Lemma trees_cons s t stk : trees ((s, t) :: stk) = trees stk ++ [t].
Proof. reflexivity. Qed.

Lemma proper_roots_app a b : proper_roots (a ++ b) = proper_roots a ++ proper_roots b.
Proof. unfold proper_roots. rewrite filter_app, map_app. reflexivity. Qed.

Lemma proper_roots_one t : proper_roots [t] = if extra t then [] else [root t].
Proof. unfold proper_roots. cbn. destruct (extra t); reflexivity. Qed.

Lemma all_by_the_rules cs :
  Forall good cs ->
  (fix all (l : list tree) : Prop := match l with [] => True | c :: l' => by_the_rules c /\ all l' end) cs.
Proof. induction 1 as [|c cs [R _] F IH]; [exact Logic.I|]. split; assumption. Qed.

Lemma all_tokens_ok cs : Forall good cs -> Forall token_ok (flat_map tokens cs).
Proof. induction 1 as [|c cs [_ R] F IH]; [constructor|]. cbn [flat_map]. apply Forall_app. split; assumption. Qed.

Lemma good_node x p cs e :
  In (proper_roots cs) (grammar x) -> (e = true -> x = N_doc_comment) -> Forall good cs -> good (Node x p cs e).
Proof.
  intros G E F. split.
  - cbn [by_the_rules]. split; [exact G|]. split; [exact E|]. exact (all_by_the_rules _ F).
  - cbn [tokens]. exact (all_tokens_ok _ F).
Qed.

Lemma edge_target s x s' : edge s x s' -> s' <> 0%N.
Proof.
  intros E Z. subst s'. pose proof (edge_befores _ _ _ E) as B. vm_compute in B. exact B.
Qed.

Lemma linked_state stk : linked stk -> state stk <> 0%N.
Proof.
  induction stk as [|[s t] stk IH]; [discriminate|]. intros (L & _ & E). cbn [state].
  destruct (extra t); [subst s; auto|]. exact (edge_target _ _ _ E).
Qed.

(** Taking the right number of trees off the stack. *)
Lemma pop_fits x stk : forall n ss v acc,
  linked stk -> In (state stk) ss -> fits_back x n ss v = true ->
  exists cs stk', pop n stk acc = Some (cs ++ acc, stk') /\ linked stk' /\ Forall good cs /\
    trees stk = trees stk' ++ cs /\ In (proper_roots cs ++ v) (grammar x) /\ goto (state stk') x <> 0%N /\
    length (proper_roots cs) = n.
Proof.
  induction stk as [|[s t] stk IH]; intros n ss v acc L I F.
  - destruct n as [|m].
    + exists [], []. cbn [fits_back] in F. apply andb_true_iff in F as [F1 F2].
      apply existsb_exists in F1 as (w & W1 & W2). apply word_eqb_eq in W2. subst w.
      rewrite forallb_forall in F2. specialize (F2 _ I). apply negb_true_iff, N.eqb_neq in F2.
      repeat split; auto.
    + cbn [fits_back] in F. apply andb_true_iff in F as [F1 _]. apply negb_true_iff in F1.
      assert (existsb (N.eqb 1) ss = true) by (apply existsb_exists; exists 1%N; split; [exact I|reflexivity]).
      congruence.
  - destruct n as [|m].
    + exists [], ((s, t) :: stk). cbn [fits_back] in F. apply andb_true_iff in F as [F1 F2].
      apply existsb_exists in F1 as (w & W1 & W2). apply word_eqb_eq in W2. subst w.
      rewrite forallb_forall in F2. specialize (F2 _ I). apply negb_true_iff, N.eqb_neq in F2.
      rewrite app_nil_r. split; [reflexivity|]. split; [exact L|]. repeat split; auto.
    + destruct L as (L & G & E). cbn [state] in I. cbn [pop]. destruct (extra t) eqn:X.
      * subst s. destruct (IH (S m) ss v (t :: acc) L I F) as (cs & stk' & P & L' & G' & T & W & Z & N).
        exists (cs ++ [t]), stk'. rewrite P, trees_cons, T, <- !app_assoc. cbn [app].
        rewrite proper_roots_app, proper_roots_one, X, app_nil_r.
        split; [reflexivity|]. split; [exact L'|]. split; [apply Forall_app; auto|]. auto.
      * cbn [fits_back] in F. apply andb_true_iff in F as [_ F].
        destruct (edge_back _ _ _ _ E I) as (qs & Q1 & Q2). rewrite forallb_forall in F. specialize (F _ Q1).
        cbn [fst snd] in F.
        destruct (IH m qs (root t :: v) (t :: acc) L Q2 F) as (cs & stk' & P & L' & G' & T & W & Z & N).
        exists (cs ++ [t]), stk'. rewrite P, trees_cons, T, <- !app_assoc. cbn [app].
        rewrite proper_roots_app, proper_roots_one, X, <- app_assoc, app_length. cbn [app length].
        split; [reflexivity|]. split; [exact L'|]. split; [apply Forall_app; auto|]. repeat split; auto. lia.
Qed.

Lemma split_extras_spec cs : forall ds es,
  split_extras cs = (ds, es) -> cs = ds ++ es /\ Forall (fun e => extra e = true) es.
Proof.
  induction cs as [|c cs IH]; intros ds es; cbn [split_extras].
  - intros E. injection E as <- <-. auto.
  - destruct (split_extras cs) as [ds' es'] eqn:S0. destruct (IH _ _ eq_refl) as [-> F].
    destruct ds' as [|d ds'].
    + destruct (extra c) eqn:X; intros E; injection E as <- <-; split; auto.
    + intros E. injection E as <- <-. auto.
Qed.

Lemma extras_no_roots es : Forall (fun e => extra e = true) es -> proper_roots es = [].
Proof.
  induction 1 as [|e es X F IH]; [reflexivity|]. change (e :: es) with ([e] ++ es).
  rewrite proper_roots_app, proper_roots_one, X, IH. reflexivity.
Qed.

Lemma linked_extras es : forall stk s,
  linked stk -> state stk = s -> Forall (fun e => extra e = true) es -> Forall good es ->
  linked (rev (map (fun e => (s, e)) es) ++ stk) /\ state (rev (map (fun e => (s, e)) es) ++ stk) = s /\
  trees (rev (map (fun e => (s, e)) es) ++ stk) = trees stk ++ es.
Proof.
  induction es as [|e es IH]; intros stk s L St X G; cbn [map rev app].
  - rewrite app_nil_r. auto.
  - rewrite <- app_assoc. cbn [app]. inversion X as [|? ? X1 X2]; subst. inversion G as [|? ? G1 G2]; subst.
    destruct (IH ((state stk, e) :: stk) (state stk)) as (A & B & C); auto.
    + cbn [linked]. rewrite X1. auto.
    + split; [exact A|]. split; [exact B|]. rewrite C, trees_cons, <- app_assoc. reflexivity.
Qed.

(** A reduction: the stack stays in order and keeps its text. *)
Lemma reduce_spec s x n p ended stk :
  linked stk -> state stk = s -> fits_back x n [s] [] = true -> (x = N_doc_comment <-> ended = true) ->
  exists stk' cs ds es low,
    reduce x n p ended stk = Some stk' /\ linked stk' /\
    state stk' = goto (state low) x /\ goto (state low) x <> 0%N /\ linked low /\
    trees stk = trees low ++ cs /\ cs = ds ++ es /\ length (proper_roots cs) = n /\ In (proper_roots cs) (grammar x) /\
    Forall (fun e => extra e = true) es /\
    trees stk' = trees low ++ Node x p ds ended :: es.
Proof.
  intros L St F D. destruct (pop_fits x stk n [s] [] [] L (or_introl (eq_sym St)) F)
    as (cs & low & P & L' & G & T & W & Z & N). rewrite app_nil_r in P, W.
  unfold reduce. rewrite P. destruct (split_extras cs) as [ds es] eqn:Sp.
  destruct (split_extras_spec _ _ _ Sp) as [Ecs X].
  set (s' := goto (state low) x) in *.
  assert (En : ended && N.eqb s' (state low) = ended).
  { destruct ended; [|reflexivity]. assert (Y : x = N_doc_comment) by (apply D; reflexivity).
    pose proof (goto_fact _ _ Z) as Gf. fold s' in Gf. unfold goto_ok in Gf. rewrite Y in Gf.
    change (sym_eqb N_doc_comment N_doc_comment) with true in Gf. cbn [andb negb orb] in Gf.
    rewrite orb_false_r in Gf. exact Gf. }
  rewrite En.
  assert (Ds : Forall good ds /\ Forall good es) by (rewrite Ecs in G; apply Forall_app in G; exact G).
  destruct Ds as [Gd Ge].
  assert (Pr : proper_roots ds = proper_roots cs).
  { rewrite Ecs, proper_roots_app, (extras_no_roots _ X), app_nil_r. reflexivity. }
  assert (Gn : good (Node x p ds ended)).
  { apply good_node; [rewrite Pr; exact W| |exact Gd]. intros E. apply D. exact E. }
  assert (Ln : linked ((s', Node x p ds ended) :: low)).
  { cbn [linked extra root]. split; [exact L'|]. split; [exact Gn|]. destruct ended.
    - apply N.eqb_eq. rewrite andb_true_l in En. exact En.
    - split; [apply linked_state, L'|]. right. split; [|split; [reflexivity|exact Z]].
      intros Y. apply D in Y. discriminate. }
  destruct (linked_extras es _ s' Ln eq_refl X Ge) as (A & B & C).
  eexists. exists cs, ds, es, low. split; [reflexivity|]. split; [exact A|]. split; [exact B|].
  split; [exact Z|]. split; [exact L'|]. split; [exact T|]. split; [exact Ecs|]. split; [exact N|].
  split; [exact W|]. split; [exact X|]. rewrite C, trees_cons, <- app_assoc. reflexivity.
Qed.

(** ** Weights: every turn makes the rest of the work smaller *)

Definition weight (x : sym) : nat :=
  match x with
  | N_statement | N_type | N_param_list | N_arg_list => 27
  | N_source_file | N_import_path | N_qualifier_list | N_expression | N_type_name | N_param => 28
  | N__statement_list | N_literal | N_identifier | N_qualifier_list_repeat1 => 29
  | N__line_insensitive_statement | N_import_relative_dot | N_qualifier | N_return | N_unary_operator
  | N_multiplicative_operator | N_additive_operator | N_comparative_operator | N_or_operator | N_overloadable_operator
  | N_primitive_type | N_bool => 30
  | _ => 31
  end.

Definition weights (v : list sym) : nat := fold_right (fun x n => weight x + n) 0 v.

Lemma weights_app v w : weights (v ++ w) = weights v + weights w.
Proof. unfold weights. induction v as [|x v IH]; cbn [app fold_right]; lia. Qed.

Lemma weight_bound x : weight x <= 31.
Proof. destruct x; cbn; lia. Qed.

Lemma weight_check :
  forallb (fun x => forallb (fun v => match v with [] => sym_eqb x N_source_file | _ => weight x <? weights v end) (grammar x))
    all_syms = true.
Proof. vm_compute. reflexivity. Qed.

Lemma weight_rule x v : In v (grammar x) -> (v = [] /\ x = N_source_file) \/ weight x < weights v.
Proof.
  intros I. pose proof (every_sym _ weight_check x) as C. cbv beta in C. rewrite forallb_forall in C. specialize (C _ I).
  cbv beta in C. destruct v as [|y v].
  - left. split; [reflexivity|]. apply sym_eqb_eq, C.
  - right. apply Nat.ltb_lt, C.
Qed.

Definition extra_work (stk : stack) : nat :=
  match proper_roots (trees stk) with
  | [] => 32
  | _ => if N.eqb (state stk) 331 then 32 else 0
  end.

Definition work (stk : stack) (t : bytes) : nat := 32 * length t + weights (proper_roots (trees stk)) + extra_work stk.

Lemma extra_work_bound stk : extra_work stk <= 32.
Proof. unfold extra_work. destruct (proper_roots _); [lia|]. destruct (N.eqb _ _); lia. Qed.

Lemma nothing_before_one q x : ~ edge q x 1.
Proof. intros E. apply edge_befores in E. vm_compute in E. exact E. Qed.

Lemma linked_one stk : linked stk -> (state stk = 1%N <-> proper_roots (trees stk) = []).
Proof.
  induction stk as [|[s t] stk IH]; [cbn; tauto|]. intros (L & _ & E). cbn [state].
  rewrite trees_cons, proper_roots_app, proper_roots_one. destruct (extra t).
  - rewrite app_nil_r. subst s. auto.
  - split.
    + intros ->. destruct (nothing_before_one _ _ E).
    + intros H. destruct (proper_roots (trees stk)); discriminate.
Qed.

(** ** A turn *)

Definition ahead_ok (stk : stack) (la : option ahead) (t : bytes) : Prop :=
  match la with
  | None => True
  | Some (Ahead k) => proper t k /\ (t_sym k = T_end -> t_rest k = []) /\ state stk <> 335%N
  | Some _ => False
  end.

Definition in_order (whole : bytes) (stk : stack) (la : option ahead) (t : bytes) : Prop :=
  linked stk /\ flat_map text (trees stk) ++ t = whole /\ ahead_ok stk la t.

(** The tree of a whole text. *)
Definition tree_of (whole : bytes) (r : tree) : Prop :=
  root r = N_source_file /\ by_the_rules r /\ Forall token_ok (tokens r) /\ text r = whole.

Definition turn_ok (whole : bytes) (n : nat) (o : turn) : Prop :=
  match o with
  | Next stk la t => in_order whole stk la t /\ work stk t < n
  | Done (Parsed r) => tree_of whole r
  | Done Rejected => True
  | Done Stuck | Done NoFuel => False
  end.

Lemma flat_map_one {A B} (f : A -> list B) a : flat_map f [a] = f a.
Proof. cbn. apply app_nil_r. Qed.

Lemma reduce_ok whole x n p ended stk t s la :
  in_order whole stk None t -> state stk = s -> fits_back x n [s] [] = true ->
  (x = N_doc_comment <-> ended = true) -> (n = 0 -> s = 1%N) -> (x = N_doc_comment -> n = 2) ->
  (forall stk', state stk' <> 335%N -> ahead_ok stk' la t) -> (ended = true -> la = None) ->
  exists stk', reduce x n p ended stk = Some stk' /\ in_order whole stk' la t /\ work stk' t < work stk t.
Proof.
  intros (L & Tx & _) St F D N0 N2 La Le.
  destruct (reduce_spec s x n p ended stk L St F D)
    as (stk' & cs & ds & es & low & R & L' & St' & Z & Ll & T & Ecs & N & W & X & T').
  exists stk'. split; [exact R|].
  assert (Gd : ended = false -> goto (state low) x <> 335%N /\ goto (state low) x <> 331%N).
  { intros E. pose proof (goto_fact _ _ Z) as G. unfold goto_ok in G.
    destruct (sym_eqb x N_doc_comment) eqn:Y.
    - apply sym_eqb_eq, D in Y. congruence.
    - cbn [andb negb orb] in G. apply andb_true_iff in G as [G1 G2].
      apply negb_true_iff, N.eqb_neq in G1, G2. auto. }
  split.
  - split; [exact L'|]. split.
    + rewrite T'. rewrite T, Ecs in Tx. rewrite <- Tx. rewrite !flat_map_app. cbn [flat_map text].
      reflexivity.
    + destruct ended; [rewrite (Le eq_refl); exact Logic.I|]. apply La. rewrite St'. apply Gd. reflexivity.
  - unfold work. rewrite T', T. change (Node x p ds ended :: es) with ([Node x p ds ended] ++ es).
    rewrite !proper_roots_app, (extras_no_roots _ X), app_nil_r, proper_roots_one. cbn [extra root].
    destruct ended.
    + assert (Xd : x = N_doc_comment) by (apply D; reflexivity).
      rewrite app_nil_r, weights_app. pose proof (extra_work_bound stk').
      assert (62 <= weights (proper_roots cs)).
      { rewrite Xd in W. change (grammar N_doc_comment) with [[T_POUND_POUND; T_doc_comment_content]] in W.
        destruct W as [W|[]]. rewrite <- W. vm_compute. lia. }
      lia.
    + rewrite !weights_app. cbn [weights fold_right].
      assert (E' : extra_work stk' = 0).
      { unfold extra_work. rewrite T'. change (Node x p ds false :: es) with ([Node x p ds false] ++ es).
        rewrite proper_roots_app. rewrite proper_roots_app, proper_roots_one. cbn [extra root app].
        destruct (proper_roots (trees low)); cbn [app]; rewrite St';
          destruct (N.eqb_spec (goto (state low) x) 331); try reflexivity; destruct (Gd eq_refl); contradiction. }
      rewrite E'. destruct (weight_rule _ _ W) as [[V Xs]|V].
      * rewrite V in *. cbn [length] in N. symmetry in N.
        assert (Es : extra_work stk = 32).
        { unfold extra_work. rewrite (proj1 (linked_one _ L)); [reflexivity|]. rewrite St. auto. }
        rewrite Es. pose proof (weight_bound x). cbn. lia.
      * lia.
Qed.

Lemma spelled_length x w : spelled x w ->
  x = T_end \/ x = T_doc_comment_content \/
  (1 <= length w /\ (x = T_POUND_POUND -> 2 <= length w) /\ (x = T_comment -> 2 <= length w)).
Proof.
  intros Sp. inversion Sp as [y v Wd|E|s H|s H1 H2|s H|s H1 H2|b c s H1 H2 H3 H4|s H|b H]; subst; auto.
  - right. right.
    assert (2 <= length w \/ (length w = 1 /\ x <> T_POUND_POUND /\ x <> T_comment)) as [L|(L & A & B)].
    { destruct x; try discriminate Wd; injection Wd as <-; cbn; first [left; lia|right; repeat split; discriminate]. }
    + repeat split; lia.
    + repeat split; try lia; intros E; contradiction.
  - right. right. destruct w; [discriminate|]. cbn. repeat split; try lia; discriminate.
  - right. right. destruct w; [contradiction|]. cbn. repeat split; try lia; discriminate.
  - right. right. rewrite !app_length. cbn. repeat split; try lia; discriminate.
  - right. right. destruct w; [contradiction|]. cbn. repeat split; try lia; discriminate.
  - right. right. rewrite !app_length. cbn. repeat split; try lia; discriminate.
  - right. right. rewrite !app_length. cbn. repeat split; try lia; discriminate.
Qed.

Lemma good_leaf x b w e :
  forallb blank b = true -> spelled x w -> (e = true -> x = T_comment \/ x = T_end) -> good (Leaf x b w e).
Proof.
  intros B Sp E. split; [exact E|]. cbn [tokens]. constructor; [|constructor]. split; [exact B|exact Sp].
Qed.

Lemma source_only stk s :
  linked stk -> state stk = s -> s <> 1%N ->
  (forall q y, In (y, q) (befores s) -> y = N_source_file /\ q = 1%N) ->
  proper_roots (trees stk) = [N_source_file].
Proof.
  intros L St Z B. induction stk as [|[s0 t] stk IH]; [cbn in St; congruence|].
  destruct L as (L & _ & E). cbn [state] in St. subst s0. rewrite trees_cons, proper_roots_app, proper_roots_one.
  destruct (extra t).
  - rewrite app_nil_r. apply IH; auto.
  - apply edge_befores in E. apply B in E as [-> E]. apply (linked_one _ L) in E. rewrite E. reflexivity.
Qed.

Lemma split_last_spec cs : forall o,
  split_last cs = o ->
  match o with
  | Some (a, t, b) => cs = a ++ t :: b /\ extra t = false /\ Forall (fun e => extra e = true) b
  | None => Forall (fun e => extra e = true) cs
  end.
Proof.
  induction cs as [|c cs IH]; intros o; cbn [split_last].
  - intros <-. constructor.
  - specialize (IH _ eq_refl). destruct (split_last cs) as [[[a t] b]|].
    + intros <-. destruct IH as (-> & X & F). auto.
    + destruct (extra c) eqn:X; intros <-; auto.
Qed.

Lemma linked_good stk : linked stk -> Forall good (trees stk).
Proof.
  induction stk as [|[s t] stk IH]; [constructor|]. intros (L & G & _). rewrite trees_cons. apply Forall_app. auto.
Qed.

Lemma accept_ok whole stk e :
  linked stk -> proper_roots (trees stk) = [N_source_file] -> good e -> extra e = true ->
  flat_map text (trees stk) ++ text e = whole ->
  exists r, accept e stk = Some r /\ tree_of whole r.
Proof.
  intros L P Ge X Tx. unfold accept. fold (trees stk).
  destruct (split_last (trees stk ++ [e])) as [[[a t] b]|] eqn:Sp.
  - destruct (split_last_spec _ _ Sp) as (Eq & Xt & Xb).
    assert (F : Forall good (a ++ t :: b)).
    { rewrite <- Eq. apply Forall_app. split; [apply linked_good, L|constructor; [exact Ge|constructor]]. }
    apply Forall_app in F as [Fa F]. inversion F as [|? ? Ft Fb]; subst.
    assert (Pa : proper_roots (a ++ t :: b) = [N_source_file]).
    { rewrite <- Eq, proper_roots_app, P, proper_roots_one, X. reflexivity. }
    change (t :: b) with ([t] ++ b) in Pa.
    rewrite !proper_roots_app, (extras_no_roots _ Xb), proper_roots_one, Xt, app_nil_r in Pa.
    destruct (proper_roots a) as [|y a'] eqn:Ra; [|destruct a'; discriminate].
    injection Pa as Rt. destruct t as [x bl w ex|x p cs ex].
    + exfalso. cbn in Rt. subst x. destruct Ft as [_ Ft]. cbn [tokens] in Ft. inversion Ft as [|? ? [_ Sp'] _]; subst.
      cbn in Sp'. inversion Sp' as [? ? Wd| | | | | | | |]; discriminate.
    + cbn in Rt. subst x. eexists. split; [reflexivity|].
      assert (Fc : Forall good cs -> Forall good (a ++ cs ++ b)).
      { intros Fc. apply Forall_app. split; [exact Fa|]. apply Forall_app. auto. }
      destruct Ft as [Rl Tk]. cbn [by_the_rules] in Rl. destruct Rl as (G & E & R). cbn [tokens] in Tk.
      assert (Fcs : Forall good cs).
      { clear -R Tk. induction cs as [|c cs IH]; [constructor|]. destruct R as [R1 R2]. cbn [flat_map] in Tk.
        apply Forall_app in Tk as [T1 T2]. constructor; [split; assumption|]. auto. }
      split; [reflexivity|].
      assert (Gn : good (Node N_source_file p (a ++ cs ++ b) false)).
      { apply good_node; [|discriminate|auto].
        rewrite !proper_roots_app, Ra, (extras_no_roots _ Xb), app_nil_r. exact G. }
      split; [exact (proj1 Gn)|]. split; [exact (proj2 Gn)|].
      rewrite <- (flat_map_one text e), <- flat_map_app, Eq. cbn [text].
      rewrite !flat_map_app. reflexivity.
  - exfalso. pose proof (split_last_spec _ _ Sp) as F. cbv iota in F. apply Forall_app in F as [F _].
    rewrite (extras_no_roots _ F) in P. discriminate.
Qed.

Theorem advance_ok whole stk la t :
  in_order whole stk la t -> turn_ok whole (work stk t) (advance stk la t).
Proof.
  intros (L & Tx & La). unfold advance.
  set (a := match la with Some a => a | None => lex_in (state stk) t end).
  assert (A : match a with
              | Ahead k => proper t k /\ (t_sym k = T_end -> t_rest k = []) /\ state stk <> 335%N
              | NullAhead => state stk = 335%N
              | AheadLoop => False
              | NoToken => True
              end).
  { subst a. destruct la as [[k| | |]|]; cbn [ahead_ok] in La; try destruct La; auto.
    destruct (lex_in (state stk) t) as [k| | |] eqn:E; auto.
    - split; [exact (lex_in_proper _ _ _ E)|]. split; [exact (lex_in_end _ _ _ E)|].
      intros S5. unfold lex_in in E. rewrite (proj2 (null_mode _) S5) in E. discriminate.
    - exact (null_state _ _ E).
    - exact (lex_in_ends _ _ E). }
  clearbody a. clear La la. destruct a as [k| | |]; [| |exact Logic.I|destruct A].
  - destruct A as (Pr & Ke & S5). destruct (first_action (actions (state stk) (t_sym k))) as [ac|] eqn:F; [|exact Logic.I].
    apply first_in in F. destruct (action_fact _ _ _ F) as (xs & Ix & Ok).
    destruct Pr as (Et & Bl & Sp).
    destruct ac as [s'| |s'|x n p| |]; try exact Logic.I.
    + (* shift *)
      cbn [action_ok] in Ok. rewrite forallb_forall in Ok. specialize (Ok _ Ix). cbv beta in Ok.
      apply andb_true_iff in Ok as [Ok O3]. apply andb_true_iff in Ok as [O1 O2].
      assert (Ne : t_sym k <> T_end).
      { intros E. rewrite E in O1. discriminate. }
      cbn [turn_ok]. split.
      * split; [|split; [|exact Logic.I]].
        -- cbn [linked extra root]. split; [exact L|]. split; [apply good_leaf; auto; discriminate|].
           split; [apply linked_state, L|]. left. exact F.
        -- rewrite trees_cons, flat_map_app, flat_map_one. cbn [text]. rewrite <- Tx.
           rewrite Et at 1. rewrite <- !app_assoc. reflexivity.
      * unfold work. rewrite trees_cons, proper_roots_app, proper_roots_one. cbn [extra root].
        rewrite weights_app. cbn [weights fold_right]. pose proof (weight_bound (t_sym k)) as Wb.
        assert (Lt : length t = length (t_blank k) + (length (t_text k) + length (t_rest k))).
        { rewrite Et at 1. rewrite !app_length. reflexivity. }
        assert (Ew : extra_work ((s', Leaf (t_sym k) (t_blank k) (t_text k) false) :: stk) =
                     if N.eqb s' 331 then 32 else 0).
        { unfold extra_work. rewrite trees_cons, proper_roots_app, proper_roots_one. cbn [extra root state].
          destruct (proper_roots (trees stk)); reflexivity. }
        rewrite Ew. destruct (spelled_length _ _ Sp) as [E|[E|(L1 & L2 & L3)]]; [contradiction| |].
        -- rewrite E in O3. change (sym_eqb T_doc_comment_content T_doc_comment_content) with true in O3.
           cbn [negb orb] in O3. apply andb_true_iff in O3 as [P1 P2]. apply N.eqb_eq in P1, P2. subst s'.
           cbn [N.eqb Pos.eqb].
           assert (Es : extra_work stk = 32).
           { unfold extra_work. rewrite P1. destruct (proper_roots (trees stk)); reflexivity. }
           rewrite Es. lia.
        -- destruct (N.eqb s' 331) eqn:E3.
           ++ cbn [negb orb] in O2. apply sym_eqb_eq in O2. specialize (L2 O2). pose proof (extra_work_bound stk). lia.
           ++ pose proof (extra_work_bound stk). lia.
    + (* shift extra *)
      cbn [action_ok] in Ok. rewrite forallb_forall in Ok. specialize (Ok _ Ix). cbv beta in Ok. apply sym_eqb_eq in Ok.
      cbn [turn_ok]. split.
      * split; [|split; [|exact Logic.I]].
        -- cbn [linked extra]. split; [exact L|]. split; [apply good_leaf; auto|reflexivity].
        -- rewrite trees_cons, flat_map_app, flat_map_one. cbn [text]. rewrite <- Tx.
           rewrite Et at 1. rewrite <- !app_assoc. reflexivity.
      * unfold work. assert (Lt : length t = length (t_blank k) + (length (t_text k) + length (t_rest k))).
        { rewrite Et at 1. rewrite !app_length. reflexivity. }
        assert (Ew : extra_work ((state stk, Leaf (t_sym k) (t_blank k) (t_text k) true) :: stk) = extra_work stk).
        { unfold extra_work. rewrite trees_cons, proper_roots_app, proper_roots_one. cbn [extra root state].
          rewrite app_nil_r. reflexivity. }
        rewrite Ew, trees_cons, proper_roots_app, proper_roots_one. cbn [extra root]. rewrite app_nil_r.
        destruct (spelled_length _ _ Sp) as [E|[E|(L1 & L2 & L3)]]; [congruence|congruence|]. specialize (L3 Ok). lia.
    + (* reduce *)
      cbn [action_ok] in Ok. apply andb_true_iff in Ok as [Ok O3]. apply andb_true_iff in Ok as [O1 O2].
      assert (Nd : x <> N_doc_comment).
      { intros E. rewrite E in O2. cbn [negb orb] in O2. change (sym_eqb N_doc_comment N_doc_comment) with true in O2.
        cbn [negb orb] in O2. apply andb_true_iff in O2 as [O2 _]. apply N.eqb_eq in O2. contradiction. }
      destruct (reduce_ok whole x n p false stk t (state stk) (Some (Ahead k))) as (stk' & R & I & W); auto.
      * split; [exact L|]. split; [exact Tx|exact Logic.I].
      * split; [contradiction|discriminate].
      * intros ->. cbn [Nat.eqb negb orb] in O3. apply N.eqb_eq, O3.
      * contradiction.
      * intros stk' S'. cbn [ahead_ok]. repeat split; auto.
      * discriminate.
      * rewrite R. split; assumption.
    + (* accept *)
      cbn [action_ok] in Ok. apply andb_true_iff in Ok as [Ok O3]. apply andb_true_iff in Ok as [O1 O2].
      rewrite forallb_forall in O1. specialize (O1 _ Ix). cbv beta in O1. apply sym_eqb_eq in O1.
      apply negb_true_iff, N.eqb_neq in O2.
      assert (B : forall q y, In (y, q) (befores (state stk)) -> y = N_source_file /\ q = 1%N).
      { intros q y I. rewrite forallb_forall in O3. specialize (O3 _ I). cbn [fst snd] in O3.
        apply andb_true_iff in O3 as [P1 P2]. apply sym_eqb_eq in P1. apply N.eqb_eq in P2. auto. }
      destruct (accept_ok whole stk (Leaf (t_sym k) (t_blank k) (t_text k) true)) as (r & R & T).
      * exact L.
      * exact (source_only _ _ L eq_refl O2 B).
      * apply good_leaf; auto.
      * reflexivity.
      * cbn [text]. rewrite <- Tx. rewrite Et at 1. rewrite (Ke O1), app_nil_r. reflexivity.
      * rewrite R. exact T.
  - rewrite A, null_action.
    destruct (reduce_ok whole N_doc_comment 2 0 true stk t (state stk) None) as (stk' & R & I & W); auto.
    + split; [exact L|]. split; [exact Tx|exact Logic.I].
    + rewrite A. vm_compute. reflexivity.
    + split; auto.
    + discriminate.
    + intros stk' _. exact Logic.I.
    + rewrite R. split; assumption.
Qed.

Theorem turns_ok whole fuel : forall stk la t,
  in_order whole stk la t -> work stk t < fuel ->
  match turns fuel stk la t with
  | Parsed r => tree_of whole r
  | Rejected => True
  | Stuck | NoFuel => False
  end.
Proof.
  induction fuel as [|fuel IH]; intros stk la t I W; [lia|].
  cbn [turns]. pose proof (advance_ok _ _ _ _ I) as O. destruct (advance stk la t) as [stk' la' t'|r].
  - destruct O as [I' W']. apply IH; [exact I'|lia].
  - exact O.
Qed.

Theorem parse_ok t :
  match parse t with
  | Parsed r => tree_of (drop_mark t) r
  | Rejected => True
  | Stuck | NoFuel => False
  end.
Proof.
  unfold parse. apply turns_ok.
  - split; [exact Logic.I|]. split; [reflexivity|exact Logic.I].
  - assert (D : length (drop_mark t) <= length t).
    { unfold drop_mark. destruct t as [|a [|b [|c t]]]; try lia. destruct (_ && _); cbn; lia. }
    unfold work, parse_fuel. cbn [trees map rev]. change (proper_roots []) with (@nil sym).
    change (extra_work []) with 32. cbn [weights fold_right]. lia.
Qed.

(** ** The tables *)

(** Repeated shifts apart, there is at most one action: several stack versions are never asked for. *)
Lemma one_action s x : length (filter (fun a => match a with ShiftRepeat _ => false | _ => true end) (actions s x)) <= 1.
Proof.
  assert (C : forallb (fun r => forallb (fun e => length (filter (fun a => match a with ShiftRepeat _ => false | _ => true end) (fst e)) <=? 1)
                                        (fst r)) rows = true) by (vm_compute; reflexivity).
  unfold actions, row. destruct (nth_in_or_default (N.to_nat s) rows ([], [])) as [I|E].
  - rewrite forallb_forall in C. specialize (C _ I). cbv beta in C. revert C.
    generalize (fst (nth (N.to_nat s) rows ([], []))). intros l C.
    induction l as [|[a xs] l IH]; [cbn; lia|]. cbn [entry]. cbn [forallb fst] in C. apply andb_true_iff in C as [C1 C2].
    destruct (existsb (sym_eqb x) xs); [apply Nat.leb_le, C1|auto].
  - rewrite E. cbn. lia.
Qed.

Theorem parse_tree t r : parse t = Parsed r -> tree_of (drop_mark t) r.
Proof. intros E. pose proof (parse_ok t) as H. rewrite E in H. exact H. Qed.

Theorem parse_ends t : (exists r, parse t = Parsed r) \/ parse t = Rejected.
Proof. pose proof (parse_ok t) as H. destruct (parse t) as [r| | |]; eauto; destruct H. Qed.

Theorem parse_tree_is t r :
  parse t = Parsed r ->
  (t = text r \/ map N_of_ascii (firstn 3 t) = [239; 187; 191]%N /\ skipn 3 t = text r) /\
  root r = N_source_file /\ by_the_rules r /\
  forall x b w, In (x, b, w) (tokens r) -> forallb blank b = true /\ spelled x w.
Proof.
  intros E. destruct (parse_tree _ _ E) as (R & G & T & X). rewrite X. split; [|split; [exact R|split; [exact G|]]].
  - unfold drop_mark. destruct t as [|a [|b [|c t]]]; auto.
    destruct ((N_of_ascii a =? 239)%N && (N_of_ascii b =? 187)%N && (N_of_ascii c =? 191)%N) eqn:M; [|auto].
    apply andb_true_iff in M as [M M3]. apply andb_true_iff in M as [M1 M2]. apply N.eqb_eq in M1, M2, M3.
    right. cbn [firstn map skipn]. rewrite M1, M2, M3. auto.
  - intros x b w I. rewrite Forall_forall in T. exact (T _ I).
Qed.
