(** * The tokens of the lexer: proofs by checking every state of the table against every byte. *)

From Coq Require Import NArith Arith Ascii String Lia Bool List.
From Verif Require Import Base FlTables FlParse SpecLex.
Import ListNotations.
Local Open Scope nat_scope.

(** ** Every byte, every state *)

Definition all_bytes : list ascii := map ascii_of_nat (seq 0 256).

Lemma in_all_bytes c : In c all_bytes.
Proof.
  unfold all_bytes. rewrite <- (ascii_nat_embedding c). apply in_map, in_seq.
  pose proof (nat_ascii_bounded c). lia.
Qed.

Lemma every_byte (f : ascii -> bool) : forallb f all_bytes = true -> forall c, f c = true.
Proof. intros H c. rewrite forallb_forall in H. apply H, in_all_bytes. Qed.

Definition accepts (k : N) : option sym := fst (lex_state k).

Definition moves (k : N) (r : bytes) : option move := pick (snd (lex_state k)) (at_eof r) (lookahead r).

Definition all_states : list N := map N.of_nat (seq 0 186).

Lemma every_state (f : N -> bool) :
  forallb f all_states = true ->
  forall k, (lex_state k = (None, []) /\ (186 <= k)%N) \/ f k = true.
Proof.
  intros H k. destruct (N.ltb k 186) eqn:E.
  - right. rewrite forallb_forall in H. apply H.
    unfold all_states. rewrite <- (N2Nat.id k). apply in_map, in_seq. apply N.ltb_lt in E. lia.
  - left. apply N.ltb_ge in E. split; [|lia]. unfold lex_state. apply nth_overflow.
    change (length lex_states) with 186. lia.
Qed.

Lemma moves_cons k c r : moves k (c :: r) = pick (snd (lex_state k)) false (N_of_ascii c).
Proof. reflexivity. Qed.

Lemma moves_head k c r r' : moves k (c :: r) = moves k (c :: r').
Proof. reflexivity. Qed.

(** One step of the lexer. *)
Lemma lex_run_step fuel k t bl tk best :
  lex_run (S fuel) k t bl tk best =
  let best' := match accepts k with Some x => Some (Token x (rev bl) (rev tk) t) | None => best end in
  match moves k t with
  | None => match best' with Some b => Found b | None => NotFound end
  | Some (Advance k') =>
    match t with
    | [] => lex_run fuel k' [] bl tk best'
    | c :: t' => lex_run fuel k' t' bl (c :: tk) best'
    end
  | Some (Skip k') =>
    match t with
    | [] => lex_run fuel k' [] (tk ++ bl) [] best'
    | c :: t' => lex_run fuel k' t' (c :: tk ++ bl) [] best'
    end
  end.
Proof.
  unfold accepts, moves. cbn [lex_run]. destruct (lex_state k) as [acc tests]. reflexivity.
Qed.

(** ** The lexer comes to an end *)

Definition ends_at_eof (k : N) : bool :=
  match moves k [] with
  | None => true
  | Some (Advance k') => match moves k' [] with None => true | _ => false end
  | Some (Skip _) => false
  end.

Lemma eof_check : forallb ends_at_eof all_states = true.
Proof. vm_compute. reflexivity. Qed.

Lemma ends_eof k : ends_at_eof k = true.
Proof.
  destruct (every_state _ eof_check k) as [[E _]|E]; [|exact E].
  unfold ends_at_eof, moves. rewrite E. reflexivity.
Qed.

Lemma lex_run_ends fuel : forall k t bl tk best,
  length t + 2 <= fuel -> lex_run fuel k t bl tk best <> LexLoop.
Proof.
  induction fuel as [|fuel IH]; intros k t bl tk best L; [lia|].
  rewrite lex_run_step. cbv zeta.
  set (best' := match accepts k with Some x => _ | None => _ end). clearbody best'.
  destruct t as [|c t'].
  - pose proof (ends_eof k) as E. unfold ends_at_eof in E.
    destruct (moves k []) as [[k'|k']|]; [|discriminate|destruct best'; discriminate].
    destruct fuel as [|fuel]; [cbn in L; lia|].
    rewrite lex_run_step. cbv zeta. destruct (moves k' []) as [[]|]; try discriminate.
    destruct (accepts k'); [discriminate|]. destruct best'; discriminate.
  - cbn [length] in L.
    destruct (moves k (c :: t')) as [[k'|k']|]; try (apply IH; lia). destruct best'; discriminate.
Qed.

Theorem lex_ends k t : lex k t <> LexLoop.
Proof. unfold lex. apply lex_run_ends. lia. Qed.

(** ** What has been read in each state *)

Inductive shape :=
| Exactly (w : bytes)      (* this text *)
| Name                     (* a name *)
| Digits | Lines           (* one or more digits, newlines *)
| Opened | Escaping | Quoted  (* a string: open, open after a backslash, closed *)
| Remark                   (* a comment *)
| Blanks | Hashed | Marked | Remarks.   (* after "##": blanks, these and "#", these and "##", anything *)

Definition shapes : list shape := [
  Exactly []; Exactly []; Exactly []; Exactly []; Exactly []; Exactly []; Exactly []; Exactly []; Opened; Exactly [];
  Exactly []; Exactly (lit "#"); Exactly (lit "&"); Exactly (lit "+"); Exactly (lit "!"); Exactly (lit "==");
  Exactly (lit "="); Exactly (lit "="); Exactly (lit "-"); Exactly (lit "^"); Exactly (lit "cl"); Exactly (lit "st");
  Exactly (lit "stati"); Exactly (lit "pur"); Exactly (lit "l"); Exactly (lit "stat"); Exactly (lit "c");
  Exactly (lit "f"); Exactly (lit "prot"); Exactly (lit "pr"); Exactly (lit "pu"); Exactly (lit "p");
  Exactly (lit "clas"); Exactly (lit "cla"); Exactly (lit "sta"); Exactly (lit "le"); Exactly (lit "s");
  Exactly (lit "pro"); Exactly (lit "p"); Exactly (lit "|"); Escaping; Exactly []; Exactly []; Exactly [];
  Exactly (lit ";"); Lines; Remark; Exactly (lit "##"); Marked; Hashed; Blanks; Remarks; Exactly (lit "{");
  Exactly (lit "}"); Exactly (lit "import"); Exactly (lit "."); Exactly (lit "static"); Exactly (lit "static");
  Exactly (lit "pure"); Exactly (lit "pure"); Exactly (lit "proto"); Exactly (lit "proto"); Exactly (lit "(");
  Exactly (lit ")"); Exactly (lit "->"); Exactly (lit "fn"); Exactly (lit "fn"); Exactly (lit "|");
  Exactly (lit "|"); Exactly (lit "class"); Exactly (lit "class"); Exactly (lit "print"); Exactly (lit "assert");
  Exactly (lit "return"); Exactly (lit "vec"); Exactly (lit "map"); Exactly (lit "<"); Exactly (lit "<");
  Exactly (lit ">"); Exactly (lit ">"); Exactly (lit ","); Exactly (lit ":"); Exactly (lit "let");
  Exactly (lit "let"); Exactly (lit "="); Exactly (lit "="); Exactly (lit "-"); Exactly (lit "-"); Exactly (lit "!");
  Exactly (lit "!"); Exactly (lit "**"); Exactly (lit "*"); Exactly (lit "/"); Exactly (lit "%"); Exactly (lit "+");
  Exactly (lit "+"); Exactly (lit "=="); Exactly (lit "=="); Exactly (lit "!="); Exactly (lit "<=");
  Exactly (lit ">="); Exactly (lit "&&"); Exactly (lit "||"); Exactly (lit "^^"); Exactly (lit "[");
  Exactly (lit "]"); Exactly (lit "++"); Exactly (lit "==="); Exactly (lit "any"); Exactly (lit "int");
  Exactly (lit "str"); Exactly (lit "bool"); Exactly (lit "void"); Exactly (lit "f"); Exactly (lit "f");
  Exactly (lit "cl"); Exactly (lit "m"); Exactly (lit "st"); Exactly (lit "ve"); Exactly (lit "stati");
  Exactly (lit "voi"); Exactly (lit "v"); Exactly (lit "non"); Exactly (lit "pur"); Exactly (lit "tru");
  Exactly (lit "fals"); Exactly (lit "l"); Exactly (lit "r"); Exactly (lit "ass"); Exactly (lit "vo");
  Exactly (lit "pr"); Exactly (lit "stat"); Exactly (lit "boo"); Exactly (lit "c"); Exactly (lit "fa");
  Exactly (lit "i"); Exactly (lit "a"); Exactly (lit "a"); Exactly (lit "retur"); Exactly (lit "i");
  Exactly (lit "no"); Exactly (lit "pri"); Exactly (lit "n"); Exactly (lit "v"); Exactly (lit "prot");
  Exactly (lit "b"); Exactly (lit "bo"); Exactly (lit "err"); Exactly (lit "imp"); Exactly (lit "ma");
  Exactly (lit "im"); Exactly (lit "p"); Exactly (lit "t"); Exactly (lit "st"); Exactly (lit "erro");
  Exactly (lit "e"); Exactly (lit "retu"); Exactly (lit "er"); Exactly (lit "pu"); Exactly (lit "asse");
  Exactly (lit "impo"); Exactly (lit "clas"); Exactly (lit "as"); Exactly (lit "cla"); Exactly (lit "fal");
  Exactly (lit "s"); Exactly (lit "in"); Exactly (lit "le"); Exactly (lit "prin"); Exactly (lit "asser");
  Exactly (lit "impor"); Exactly (lit "re"); Exactly (lit "sta"); Exactly (lit "pro"); Exactly (lit "s");
  Exactly (lit "p"); Exactly (lit "tr"); Exactly (lit "ret"); Exactly (lit "an"); Name; Digits; Quoted;
  Exactly (lit "true"); Exactly (lit "false"); Exactly (lit "error"); Exactly (lit "none")
].

Definition shape_of (k : N) : shape := nth (N.to_nat k) shapes Blanks.

Definition sat (p : shape) (s : bytes) : Prop :=
  match p with
  | Exactly w => s = w
  | Name => is_name s = true
  | Digits => s <> [] /\ forallb digit s = true
  | Lines => s <> [] /\ forallb (Ascii.eqb LF) s = true
  | Opened => exists b, s = """"%char :: b /\ quotable b
  | Escaping => exists b, s = """"%char :: b ++ ["\"%char] /\ quotable b
  | Quoted => exists b, s = """"%char :: b ++ [""""%char] /\ quotable b
  | Remark => exists b c r, s = b ++ ["#"%char; c] ++ r /\ forallb blank b = true /\ c <> "#"%char /\ c <> NUL /\
                            forallb inline r = true
  | Blanks => forallb (fun c => blank c && inline c) s = true
  | Hashed => exists b, s = b ++ ["#"%char] /\ forallb (fun c => blank c && inline c) b = true
  | Marked => exists b, s = b ++ lit "##" /\ forallb (fun c => blank c && inline c) b = true
  | Remarks => forallb inline s = true
  end.

(** Whether one more byte leads from a shape to another. *)
Definition grows (p : shape) (c : ascii) (q : shape) : bool :=
  match p, q with
  | Exactly w, Exactly w' => bytes_eqb (w ++ [c]) w'
  | Exactly w, Name => is_name (w ++ [c])
  | Exactly [], Digits => digit c
  | Exactly [], Lines => Ascii.eqb LF c
  | Exactly [], Opened => Ascii.eqb c """"
  | Exactly w, Remark => bytes_eqb w ["#"%char] && negb (Ascii.eqb c "#") && negb (Ascii.eqb c NUL)
  | Name, Name => wordly c
  | Digits, Digits => digit c
  | Lines, Lines => Ascii.eqb LF c
  | Opened, Opened => negb (Ascii.eqb c """") && negb (Ascii.eqb c "\") && negb (Ascii.eqb c NUL)
  | Opened, Escaping => Ascii.eqb c "\"
  | Escaping, Opened => inline c
  | Opened, Quoted => Ascii.eqb c """"
  | Remark, Remark => inline c
  | Blanks, Blanks => blank c && inline c
  | Blanks, Hashed => Ascii.eqb c "#"
  | Blanks, Remarks => inline c
  | Hashed, Remark => negb (Ascii.eqb c "#") && negb (Ascii.eqb c NUL)
  | Hashed, Marked => Ascii.eqb c "#"
  | Marked, Remarks => inline c
  | Remarks, Remarks => inline c
  | _, _ => false
  end.

Lemma forallb_snoc {A} (f : A -> bool) s c : forallb f (s ++ [c]) = forallb f s && f c.
Proof. rewrite forallb_app. cbn. rewrite andb_true_r. reflexivity. Qed.

Lemma forallb_weaken {A} (f g : A -> bool) s :
  (forall c, f c = true -> g c = true) -> forallb f s = true -> forallb g s = true.
Proof. intros H F. rewrite forallb_forall in *. auto. Qed.

Lemma both_blank b : forallb (fun c => blank c && inline c) b = true -> forallb blank b = true.
Proof. apply forallb_weaken. intros c H. apply andb_true_iff in H. tauto. Qed.

Lemma both_inline b : forallb (fun c => blank c && inline c) b = true -> forallb inline b = true.
Proof. apply forallb_weaken. intros c H. apply andb_true_iff in H. tauto. Qed.

Lemma is_name_snoc s c : is_name s = true -> wordly c = true -> is_name (s ++ [c]) = true.
Proof.
  destruct s as [|a s]; cbn [is_name app]; [discriminate|]. intros H W.
  apply andb_true_iff in H as [L F]. rewrite L, forallb_snoc, F, W. reflexivity.
Qed.

Lemma neqb_neq c d : negb (Ascii.eqb c d) = true -> c <> d.
Proof. intros H E. apply negb_true_iff in H. apply Ascii.eqb_neq in H. contradiction. Qed.

Lemma grows_sound p c q s : grows p c q = true -> sat p s -> sat q (s ++ [c]).
Proof.
  intros G S0. destruct p, q; cbn [grows sat] in *; try discriminate; try (destruct w; discriminate).
  - subst s. destruct w; apply bytes_eqb_eq in G; exact G.
  - subst s. destruct w; exact G.
  - destruct w; [|discriminate]. subst s. split; [discriminate|]. cbn. rewrite G. reflexivity.
  - destruct w; [|discriminate]. subst s. split; [discriminate|]. cbn [app forallb]. rewrite G. reflexivity.
  - destruct w; [|discriminate]. subst s. apply Ascii.eqb_eq in G. subst c. exists []. split; [reflexivity|constructor].
  - destruct w as [|d w]; [discriminate G|]. apply andb_true_iff in G as [G N2]. apply andb_true_iff in G as [E N1].
    apply bytes_eqb_eq in E. rewrite E in S0. subst s. exists [], c, []. cbn. repeat split; auto using neqb_neq.
  - auto using is_name_snoc.
  - destruct S0 as [S1 S2]. split; [destruct s; discriminate|]. rewrite forallb_snoc, S2, G. reflexivity.
  - destruct S0 as [S1 S2]. split; [destruct s; discriminate|]. rewrite forallb_snoc, S2, G. reflexivity.
  - destruct S0 as (b & -> & Q). apply andb_true_iff in G as [G N3]. apply andb_true_iff in G as [N1 N2].
    exists (b ++ [c]). split; [reflexivity|]. apply quotable_plain; auto using neqb_neq.
  - destruct S0 as (b & -> & Q). apply Ascii.eqb_eq in G. subst c. exists b. split; [reflexivity|exact Q].
  - destruct S0 as (b & -> & Q). apply Ascii.eqb_eq in G. subst c. exists b. split; [reflexivity|exact Q].
  - destruct S0 as (b & -> & Q). exists (b ++ ["\"%char; c]). split.
    + cbn [app]. rewrite <- app_assoc. reflexivity.
    + apply quotable_escape; assumption.
  - destruct S0 as (b & d & r & -> & B & N1 & N2 & F). exists b, d, (r ++ [c]).
    rewrite <- !app_assoc. repeat split; try assumption. rewrite forallb_snoc, F, G. reflexivity.
  - rewrite forallb_snoc, S0, G. reflexivity.
  - apply Ascii.eqb_eq in G. subst c. exists s. auto.
  - rewrite forallb_snoc, (both_inline _ S0), G. reflexivity.
  - destruct S0 as (b & -> & B). apply andb_true_iff in G as [N1 N2]. exists b, c, [].
    rewrite <- app_assoc. repeat split; auto using neqb_neq, both_blank.
  - destruct S0 as (b & -> & B). apply Ascii.eqb_eq in G. subst c. exists b.
    rewrite <- app_assoc. split; [reflexivity|exact B].
  - destruct S0 as (b & -> & B). rewrite forallb_snoc, forallb_app, (both_inline _ B), G. reflexivity.
  - rewrite forallb_snoc, S0, G. reflexivity.
Qed.

(** Which token a shape is the text of. *)
Definition fits (p : shape) (x : sym) : bool :=
  match p, x with
  | Exactly [], T_end => true
  | Exactly w, T_identifier_token1 => is_name w
  | Exactly w, _ => match word x with Some w' => bytes_eqb w w' | None => false end
  | Name, T_identifier_token1 | Digits, T_number | Lines, T_LF | Quoted, T_string | Remark, T_comment => true
  | Blanks, T_doc_comment_content | Hashed, T_doc_comment_content | Remarks, T_doc_comment_content => true
  | Marked, T_POUND_POUND => true
  | _, _ => false
  end.

Lemma fits_sound p x s : fits p x = true -> sat p s -> spelled x s.
Proof.
  intros F S0. destruct p; cbn [fits sat] in *.
  - subst s. destruct x; try (destruct w; discriminate);
      try (constructor; destruct w as [|c w]; [discriminate F|];
           cbn [word] in *; apply bytes_eqb_eq in F; rewrite F; reflexivity).
    + destruct w; [apply spelled_end|discriminate].
    + apply spelled_name. destruct w; exact F.
  - destruct x; try discriminate. apply spelled_name. exact S0.
  - destruct x; try discriminate. destruct S0. apply spelled_number; assumption.
  - destruct x; try discriminate. destruct S0. apply spelled_newlines; assumption.
  - discriminate.
  - discriminate.
  - destruct x; try discriminate. destruct S0 as (b & -> & Q). change (""""%char :: b ++ [""""%char]) with ([""""%char] ++ b ++ [""""%char]).
    apply spelled_string. exact Q.
  - destruct x; try discriminate. destruct S0 as (b & c & r & -> & B & N1 & N2 & R). apply spelled_comment; assumption.
  - destruct x; try discriminate. apply spelled_doc. apply both_inline, S0.
  - destruct x; try discriminate. destruct S0 as (b & -> & B). apply spelled_doc. rewrite forallb_snoc, (both_inline _ B). reflexivity.
  - destruct x; try discriminate. destruct S0 as (b & -> & B). apply spelled_doc_mark. apply both_blank, B.
  - destruct x; try discriminate. apply spelled_doc. exact S0.
Qed.

Definition is_exactly_nil (p : shape) : bool := match p with Exactly [] => true | _ => false end.

Definition state_ok (k : N) : bool :=
  match accepts k with Some x => fits (shape_of k) x | None => true end &&
  match moves k [] with
  | None => true
  | Some (Advance k') => is_exactly_nil (shape_of k) && is_exactly_nil (shape_of k')
  | Some (Skip _) => false
  end &&
  forallb (fun c =>
    match moves k [c] with
    | None => true
    | Some (Advance k') => grows (shape_of k) c (shape_of k')
    | Some (Skip k') => blank c && is_exactly_nil (shape_of k) && is_exactly_nil (shape_of k')
    end) all_bytes.

Lemma states_check : forallb state_ok all_states = true.
Proof. vm_compute. reflexivity. Qed.

Lemma exactly_nil p s : is_exactly_nil p = true -> sat p s -> s = [].
Proof. destruct p as [[|]| | | | | | | | | | |]; try discriminate. intros _ H. exact H. Qed.

Lemma nil_exactly p : is_exactly_nil p = true -> sat p [].
Proof. destruct p as [[|]| | | | | | | | | | |]; try discriminate. reflexivity. Qed.

(** The facts of the check, for every state. *)
Lemma state_accepts k x : accepts k = Some x -> fits (shape_of k) x = true.
Proof.
  intros A. destruct (every_state _ states_check k) as [[E _]|E].
  - unfold accepts in A. rewrite E in A. discriminate.
  - unfold state_ok in E. rewrite A in E. apply andb_true_iff in E as [E _]. apply andb_true_iff in E. tauto.
Qed.

Lemma state_eof k mv :
  moves k [] = Some mv ->
  exists k', mv = Advance k' /\ is_exactly_nil (shape_of k) = true /\ is_exactly_nil (shape_of k') = true.
Proof.
  intros M. destruct (every_state _ states_check k) as [[E _]|E].
  - unfold moves in M. rewrite E in M. discriminate.
  - unfold state_ok in E. rewrite M in E. apply andb_true_iff in E as [E _]. apply andb_true_iff in E as [_ E].
    destruct mv as [k'|]; [|discriminate]. apply andb_true_iff in E. exists k'. tauto.
Qed.

Lemma state_moves k c r :
  match moves k (c :: r) with
  | None => True
  | Some (Advance k') => grows (shape_of k) c (shape_of k') = true
  | Some (Skip k') => blank c = true /\ is_exactly_nil (shape_of k) = true /\ is_exactly_nil (shape_of k') = true
  end.
Proof.
  rewrite (moves_head k c r []). destruct (every_state _ states_check k) as [[E _]|E].
  - unfold moves. rewrite E. exact Logic.I.
  - unfold state_ok in E. apply andb_true_iff in E as [_ E]. pose proof (every_byte _ E c) as B. cbv beta in B.
    destruct (moves k [c]) as [[k'|k']|]; try exact B; auto.
    apply andb_true_iff in B as [B ?]. apply andb_true_iff in B. tauto.
Qed.

(** ** What is found *)

(** The token with the blanks before it and the text after it is the text that was read, and it is spelled as it should. *)
Definition proper (whole : bytes) (b : token) : Prop :=
  whole = t_blank b ++ t_text b ++ t_rest b /\ forallb blank (t_blank b) = true /\ spelled (t_sym b) (t_text b).

Lemma lex_run_proper fuel : forall k t bl tk best b whole,
  whole = rev bl ++ rev tk ++ t ->
  forallb blank (rev bl) = true -> sat (shape_of k) (rev tk) ->
  (forall b, best = Some b -> proper whole b) ->
  lex_run fuel k t bl tk best = Found b -> proper whole b.
Proof.
  induction fuel as [|fuel IH]; intros k t bl tk best b whole W B S0 P R; [discriminate|].
  rewrite lex_run_step in R. cbv zeta in R.
  set (best' := match accepts k with Some x => _ | None => _ end) in *.
  assert (P' : forall b, best' = Some b -> proper whole b).
  { intros b'. subst best'. destruct (accepts k) as [x|] eqn:A; [|apply P].
    intros E. injection E as <-. repeat split; cbn; [exact W|exact B|].
    exact (fits_sound _ _ _ (state_accepts _ _ A) S0). }
  clearbody best'. clear P.
  destruct t as [|c t'].
  - destruct (moves k []) as [mv|] eqn:M; [|destruct best'; [injection R as <-; auto|discriminate]].
    destruct (state_eof _ _ M) as (k' & -> & N1 & N2).
    eapply IH; [exact W|exact B| |exact P'|exact R].
    rewrite (exactly_nil _ _ N1 S0). apply nil_exactly, N2.
  - pose proof (state_moves k c t') as G. destruct (moves k (c :: t')) as [[k'|k']|].
    + eapply IH; [|exact B| |exact P'|exact R].
      * rewrite W. cbn [rev]. rewrite <- !app_assoc. reflexivity.
      * cbn [rev]. exact (grows_sound _ _ _ _ G S0).
    + destruct G as (Bc & N1 & N2). pose proof (exactly_nil _ _ N1 S0) as T.
      assert (tk = []) by (destruct tk as [|a tk]; [reflexivity|cbn in T; destruct (rev tk); discriminate]). subst tk.
      eapply IH; [| | |exact P'|exact R].
      * rewrite W. cbn [rev app]. rewrite <- !app_assoc. reflexivity.
      * cbn [app rev]. rewrite forallb_snoc, B, Bc. reflexivity.
      * apply nil_exactly, N2.
    + destruct best'; [injection R as <-; auto|discriminate].
Qed.

Definition modes : list N := [0; 1; 2; 3; 4; 5; 6; 7; 9; 10; 41; 42; 50]%N.

Lemma modes_check :
  forallb (fun o => match o with Some m => existsb (N.eqb m) modes | None => true end) lex_modes = true.
Proof. vm_compute. reflexivity. Qed.

Lemma mode_in s m : lex_mode s = Some m -> In m modes.
Proof.
  unfold lex_mode. intros E. pose proof modes_check as C. rewrite forallb_forall in C.
  destruct (nth_in_or_default (N.to_nat s) lex_modes (Some 0%N)) as [I|D].
  - rewrite E in I. specialize (C _ I). cbv beta iota in C. apply existsb_exists in C as (x & I' & X).
    apply N.eqb_eq in X. subst x. exact I'.
  - rewrite E in D. injection D as ->. left. reflexivity.
Qed.

Lemma mode_shape m : In m modes -> sat (shape_of m) [].
Proof. intros H. repeat (destruct H as [<-|H]; [reflexivity|]). destruct H. Qed.

Theorem lex_proper m t b : In m modes -> lex m t = Found b -> proper t b.
Proof.
  intros I R. apply (lex_run_proper _ _ _ _ _ _ _ t) in R; auto.
  - apply mode_shape, I.
  - discriminate.
Qed.

Theorem lex_in_proper s t b : lex_in s t = Ahead b -> proper t b.
Proof.
  unfold lex_in. destruct (lex_mode s) as [m|] eqn:E; [|discriminate].
  destruct (lex m t) as [k| |] eqn:L; [| |discriminate].
  - intros H. injection H as <-. exact (lex_proper _ _ _ (mode_in _ _ E) L).
  - destruct (lex 0 t) as [k| |] eqn:L0; try discriminate. intros H. injection H as <-.
    apply (lex_proper 0 t k); [left; reflexivity|exact L0].
Qed.

Theorem lex_in_ends s t : lex_in s t <> AheadLoop.
Proof.
  unfold lex_in. destruct (lex_mode s) as [m|]; [|discriminate].
  pose proof (lex_ends m t). pose proof (lex_ends 0 t).
  destruct (lex m t); try discriminate; [|contradiction]. destruct (lex 0 t); try discriminate. contradiction.
Qed.

(** ** Tokens are as long as they can be *)

(** In state [k] the lexer cannot go on over [r] to another token at once. *)
Definition last_at (k : N) (r : bytes) : Prop :=
  match r with
  | [] => True
  | c :: _ =>
    match moves k [c] with
    | None => True
    | Some (Advance k') | Some (Skip k') => accepts k' = None
    end
  end.

Lemma lex_run_last (P : N -> Prop) fuel :
  (forall k r k', P k -> moves k r = Some (Advance k') -> P k') ->
  (forall k r k', P k -> moves k r = Some (Skip k') -> P k') ->
  forall k t bl tk best b, P k -> lex_run fuel k t bl tk best = Found b ->
  (best = Some b /\ accepts k = None) \/
  (exists k', P k' /\ accepts k' = Some (t_sym b) /\ last_at k' (t_rest b)).
Proof.
  intros PA PS. induction fuel as [|fuel IH]; intros k t bl tk best b Pk R; [discriminate|].
  rewrite lex_run_step in R. cbv zeta in R.
  set (best' := match accepts k with Some x => _ | None => _ end) in *.
  assert (K : best' = Some b -> last_at k t ->
              (best = Some b /\ accepts k = None) \/
              (exists k', P k' /\ accepts k' = Some (t_sym b) /\ last_at k' (t_rest b))).
  { subst best'. destruct (accepts k) as [x|] eqn:A.
    - intros E L. injection E as <-. right. exists k. auto.
    - intros E L. left. auto. }
  clearbody best'.
  destruct (moves k t) as [[k'|k']|] eqn:M.
  - destruct t as [|c t']; (destruct (IH _ _ _ _ _ _ (PA _ _ _ Pk M) R) as [[E A]|H]; [|right; exact H]);
      apply K; try exact E; cbn [last_at]; auto.
    rewrite (moves_head k c t' []) in M. rewrite M. exact A.
  - destruct t as [|c t']; (destruct (IH _ _ _ _ _ _ (PS _ _ _ Pk M) R) as [[E A]|H]; [|right; exact H]);
      apply K; try exact E; cbn [last_at]; auto.
    rewrite (moves_head k c t' []) in M. rewrite M. exact A.
  - destruct best' as [b'|]; [|discriminate]. injection R as ->. apply K; [reflexivity|].
    destruct t as [|c t']; [exact Logic.I|]. cbn [last_at]. rewrite (moves_head k c t' []) in M. rewrite M. exact Logic.I.
Qed.

(** The states from which the lexer takes some keywords without looking at the byte after them, and their start. *)
Definition hasty (k : N) : bool :=
  existsb (N.eqb k)
    ([2; 3; 4; 10] ++ [20; 21; 22; 23; 24; 25; 26; 27; 28; 29; 30; 31; 32; 33; 34; 35; 36; 37; 38] ++
     [56; 58; 60; 65; 69; 82])%N.

Definition careful (k : N) : bool :=
  (hasty k || (negb match moves k [] with Some (Advance k') | Some (Skip k') => hasty k' | None => false end &&
               forallb (fun c => negb match moves k [c] with Some (Advance k') | Some (Skip k') => hasty k' | None => false end)
                 all_bytes)) &&
  match accepts k with
  | Some x =>
    if keyword x && negb (hasty k) || sym_eqb x T_identifier_token1 then
      forallb (fun c => negb (wordly c) ||
        match moves k [c] with Some (Advance k') => match accepts k' with Some _ => true | None => false end | _ => false end)
        all_bytes
    else if sym_eqb x T_number then
      forallb (fun c => negb (digit c) ||
        match moves k [c] with Some (Advance k') => match accepts k' with Some _ => true | None => false end | _ => false end)
        all_bytes
    else true
  | None => true
  end.

Lemma careful_check : forallb careful all_states = true.
Proof. vm_compute. reflexivity. Qed.

Lemma hasty_stays k r k' :
  hasty k = false -> moves k r = Some (Advance k') \/ moves k r = Some (Skip k') -> hasty k' = false.
Proof.
  intros H M. destruct (every_state _ careful_check k) as [[E _]|E].
  - unfold moves in M. rewrite E in M. destruct M; discriminate.
  - unfold careful in E. apply andb_true_iff in E as [E _]. rewrite H in E. apply andb_true_iff in E as [E1 E2].
    destruct r as [|c r].
    + apply negb_true_iff in E1. destruct M as [M|M]; rewrite M in E1; exact E1.
    + pose proof (every_byte _ E2 c) as B. cbv beta in B. apply negb_true_iff in B.
      rewrite (moves_head k c r []) in M. destruct M as [M|M]; rewrite M in B; exact B.
Qed.

Lemma careful_word k x c r :
  accepts k = Some x -> x = T_identifier_token1 \/ (keyword x = true /\ hasty k = false) ->
  last_at k (c :: r) -> wordly c = false.
Proof.
  intros A X L. destruct (every_state _ careful_check k) as [[E _]|E].
  - unfold accepts in A. rewrite E in A. discriminate.
  - unfold careful in E. apply andb_true_iff in E as [_ E]. rewrite A in E.
    replace (keyword x && negb (hasty k) || sym_eqb x T_identifier_token1) with true in E.
    + pose proof (every_byte _ E c) as B. cbv beta in B. cbn [last_at] in L.
      destruct (wordly c); [|reflexivity]. cbn [negb orb] in B.
      destruct (moves k [c]) as [[k'|]|]; try discriminate. rewrite L in B. discriminate.
    + destruct X as [->|[K H]]; [now rewrite orb_true_r|]. rewrite K, H. reflexivity.
Qed.

Lemma careful_number k c r : accepts k = Some T_number -> last_at k (c :: r) -> digit c = false.
Proof.
  intros A L. destruct (every_state _ careful_check k) as [[E _]|E].
  - unfold accepts in A. rewrite E in A. discriminate.
  - unfold careful in E. apply andb_true_iff in E as [_ E]. rewrite A in E.
    change (keyword T_number) with false in E. change (sym_eqb T_number T_identifier_token1) with false in E.
    change (sym_eqb T_number T_number) with true in E. cbn [andb orb] in E.
    pose proof (every_byte _ E c) as B. cbv beta in B. cbn [last_at] in L.
    destruct (digit c); [|reflexivity]. cbn [negb orb] in B.
    destruct (moves k [c]) as [[k'|]|]; try discriminate. rewrite L in B. discriminate.
Qed.

Lemma lex_last m t b :
  lex m t = Found b -> exists k, (hasty m = false -> hasty k = false) /\ accepts k = Some (t_sym b) /\ last_at k (t_rest b).
Proof.
  intros R. destruct (hasty m) eqn:H.
  - destruct (lex_run_last (fun _ => True) _ (fun _ _ _ _ _ => Logic.I) (fun _ _ _ _ _ => Logic.I) _ _ _ _ _ _ Logic.I R)
      as [[E _]|(k & _ & A & L)]; [discriminate|]. exists k. split; [discriminate|]. auto.
  - destruct (lex_run_last (fun k => hasty k = false) _
                (fun k r k' P M => hasty_stays k r k' P (or_introl M))
                (fun k r k' P M => hasty_stays k r k' P (or_intror M)) _ _ _ _ _ _ H R)
      as [[E _]|(k & P & A & L)]; [discriminate|]. exists k. auto.
Qed.

Theorem lex_name_whole m t b : lex m t = Found b -> t_sym b = T_identifier_token1 -> stops (t_rest b).
Proof.
  intros R X. destruct (lex_last _ _ _ R) as (k & _ & A & L). destruct (t_rest b) as [|c r]; [exact Logic.I|].
  exact (careful_word _ _ _ _ A (or_introl X) L).
Qed.

Theorem lex_keyword_whole m t b :
  hasty m = false -> lex m t = Found b -> keyword (t_sym b) = true -> stops (t_rest b).
Proof.
  intros H R X. destruct (lex_last _ _ _ R) as (k & Hk & A & L). destruct (t_rest b) as [|c r]; [exact Logic.I|].
  exact (careful_word _ _ _ _ A (or_intror (conj X (Hk H))) L).
Qed.

Theorem lex_number_whole m t b :
  lex m t = Found b -> t_sym b = T_number -> match t_rest b with [] => True | c :: _ => digit c = false end.
Proof.
  intros R X. destruct (lex_last _ _ _ R) as (k & _ & A & L). destruct (t_rest b) as [|c r]; [exact Logic.I|].
  rewrite X in A. exact (careful_number _ _ _ A L).
Qed.

(** ** Finding a token that is there *)

(** The states passed while a text is taken in. *)
Fixpoint walk (k : N) (w : bytes) : option N :=
  match w with
  | [] => Some k
  | c :: w' => match moves k [c] with Some (Advance k') => walk k' w' | _ => None end
  end.

Lemma walk_app k w v k' : walk k w = Some k' -> walk k (w ++ v) = walk k' v.
Proof.
  revert k. induction w as [|c w IH]; intros k; cbn [walk app]; [intros E; injection E as ->; reflexivity|].
  destruct (moves k [c]) as [[k1|]|]; try discriminate. apply IH.
Qed.

Lemma walk_found w : forall fuel k k' x r bl tk best,
  walk k w = Some k' -> accepts k' = Some x -> moves k' r = None -> length w < fuel ->
  lex_run fuel k (w ++ r) bl tk best = Found (Token x (rev bl) (rev tk ++ w) r).
Proof.
  induction w as [|c w IH]; intros fuel k k' x r bl tk best W A M L; (destruct fuel as [|fuel]; [cbn in L; lia|]).
  - cbn [walk] in W. injection W as ->. cbn [app]. rewrite lex_run_step, A, M. cbv zeta. rewrite app_nil_r. reflexivity.
  - cbn [walk] in W. rewrite lex_run_step. cbv zeta. cbn [app]. rewrite (moves_head k c (w ++ r) []).
    destruct (moves k [c]) as [[k1|]|]; try discriminate.
    erewrite IH; [|exact W|exact A|exact M|cbn in L; lia]. cbn [rev]. rewrite <- app_assoc. reflexivity.
Qed.

(** A blank that the state skips. *)
Lemma skip_found fuel k b r bl best x w r' :
  moves k [b] = Some (Skip k) -> accepts k = None ->
  lex_run fuel k r (b :: bl) [] best = Found (Token x (rev (b :: bl)) w r') ->
  lex_run (S fuel) k (b :: r) bl [] best = Found (Token x (rev (b :: bl)) w r').
Proof.
  intros M A R. rewrite lex_run_step. cbv zeta. rewrite (moves_head k b r []), M, A. exact R.
Qed.

(** The modes in which names are found. *)
Definition naming : list N := [0; 1; 5; 6; 7; 9; 41; 42]%N.

(** The states inside names. *)
Definition worded (k : N) : bool :=
  negb (hasty k) && match accepts k with Some x => keyword x || sym_eqb x T_identifier_token1 | None => false end.

Definition naming_ok (k : N) : bool :=
  (negb (existsb (N.eqb k) naming) ||
   forallb (fun c => negb (letter c) || match moves k [c] with Some (Advance k') => worded k' | _ => false end) all_bytes) &&
  (negb (worded k) ||
   (match moves k [] with None => true | _ => false end &&
    forallb (fun c => match moves k [c] with Some (Advance k') => wordly c && worded k' | Some _ => false | None => negb (wordly c) end)
      all_bytes)).

Lemma naming_check : forallb naming_ok all_states = true.
Proof. vm_compute. reflexivity. Qed.

Lemma worded_state k : worded k = true -> naming_ok k = true.
Proof.
  intros W. destruct (every_state _ naming_check k) as [[E _]|E]; [|exact E].
  unfold worded, accepts in W. rewrite E in W. cbn in W. rewrite andb_false_r in W. discriminate.
Qed.

Lemma worded_goes k c : worded k = true -> wordly c = true -> exists k', moves k [c] = Some (Advance k') /\ worded k' = true.
Proof.
  intros W C. pose proof (worded_state _ W) as O. unfold naming_ok in O. apply andb_true_iff in O as [_ O].
  rewrite W in O. cbn [negb orb] in O. apply andb_true_iff in O as [_ O]. pose proof (every_byte _ O c) as B. cbv beta in B.
  destruct (moves k [c]) as [[k'|]|]; try discriminate.
  - exists k'. apply andb_true_iff in B. tauto.
  - rewrite C in B. discriminate.
Qed.

Lemma worded_stops k r : worded k = true -> stops r -> moves k r = None.
Proof.
  intros W C. pose proof (worded_state _ W) as O. unfold naming_ok in O. apply andb_true_iff in O as [_ O].
  rewrite W in O. cbn [negb orb] in O. apply andb_true_iff in O as [O1 O2]. destruct r as [|c r].
  - destruct (moves k []); [discriminate|reflexivity].
  - cbn [stops] in C. pose proof (every_byte _ O2 c) as B. cbv beta in B. rewrite (moves_head k c r []).
    destruct (moves k [c]) as [[k'|]|]; try reflexivity; try discriminate. rewrite C in B. discriminate.
Qed.

Lemma worded_walk w : forall k, worded k = true -> forallb wordly w = true -> exists k', walk k w = Some k' /\ worded k' = true.
Proof.
  induction w as [|c w IH]; intros k W F; cbn [walk]; [exists k; auto|].
  cbn [forallb] in F. apply andb_true_iff in F as [C F]. destruct (worded_goes _ _ W C) as (k' & -> & W'). auto.
Qed.

Lemma naming_walk m w : In m naming -> is_name w = true -> exists k, walk m w = Some k /\ worded k = true.
Proof.
  intros I. destruct w as [|c w]; cbn [is_name]; [discriminate|]. intros N.
  apply andb_true_iff in N as [C F].
  destruct (every_state _ naming_check m) as [[_ L]|O].
  { exfalso. repeat (destruct I as [<-|I]; [lia|]). destruct I. }
  unfold naming_ok in O. apply andb_true_iff in O as [O _].
  replace (existsb (N.eqb m) naming) with true in O
    by (symmetry; apply existsb_exists; exists m; split; [exact I|apply N.eqb_refl]).
  cbn [negb orb] in O. pose proof (every_byte _ O c) as B. cbv beta in B. rewrite C in B. cbn [negb orb] in B.
  cbn [walk]. destruct (moves m [c]) as [[k|]|]; try discriminate. exact (worded_walk w k B F).
Qed.

Lemma walk_sat w : forall k k' s, walk k w = Some k' -> sat (shape_of k) s -> sat (shape_of k') (s ++ w).
Proof.
  induction w as [|c w IH]; intros k k' s; cbn [walk].
  - intros E S0. injection E as <-. rewrite app_nil_r. exact S0.
  - intros E S0. pose proof (state_moves k c []) as G. destruct (moves k [c]) as [[k1|]|]; try discriminate.
    pose proof (IH _ _ _ E (grows_sound _ _ _ _ G S0)) as H. rewrite <- app_assoc in H. exact H.
Qed.

(** A name in a place for names is found whole, as a name or as the keyword of this spelling. *)
Theorem lex_name_found m w r :
  In m naming -> is_name w = true -> stops r ->
  exists x, lex m (w ++ r) = Found (Token x [] w r) /\ (x = T_identifier_token1 \/ word x = Some w).
Proof.
  intros I N St. destruct (naming_walk _ _ I N) as (k & W & K). pose proof (worded_stops _ _ K St) as M.
  pose proof K as K'. unfold worded in K'. apply andb_true_iff in K' as [_ K'].
  destruct (accepts k) as [x|] eqn:A; [|discriminate]. exists x. split.
  - unfold lex. erewrite walk_found; [|exact W|exact A|exact M|rewrite app_length; lia]. reflexivity.
  - apply orb_true_iff in K' as [K'|K'].
    + right. assert (Im : In m modes) by (repeat (destruct I as [<-|I]; [cbn; tauto|]); destruct I).
      pose proof (fits_sound _ _ _ (state_accepts _ _ A) (walk_sat _ _ _ [] W (mode_shape _ Im))) as Sp. cbn [app] in Sp.
      inversion Sp; subst; try discriminate K'; assumption.
    + left. unfold sym_eqb in K'. destruct x; try discriminate K'; reflexivity.
Qed.

(** ** In the states of the parser *)

(** The table of the parser has something to do with the token [x] in the state [s]. *)
Definition allows (s : N) (x : sym) : bool := match actions s x with [] => false | _ => true end.

Definition all_rows : list N := map N.of_nat (seq 0 336).

Lemma every_row (f : N -> bool) : forallb f all_rows = true -> forall s x, allows s x = true -> f s = true.
Proof.
  intros H s x A. destruct (N.ltb s 336) eqn:E.
  - rewrite forallb_forall in H. apply H.
    unfold all_rows. rewrite <- (N2Nat.id s). apply in_map, in_seq. apply N.ltb_lt in E. lia.
  - apply N.ltb_ge in E. unfold allows, actions, row in A. rewrite nth_overflow in A; [discriminate|].
    change (length rows) with 336. lia.
Qed.

(** Spaces, tabs and the like, but no newline. *)
Definition some_bytes (f : ascii -> bool) : list ascii := filter f all_bytes.

Lemma some_byte (f g : ascii -> bool) l : l = some_bytes f -> forallb g l = true -> forall c, f c = true -> g c = true.
Proof.
  intros -> H c F. rewrite forallb_forall in H. apply H, filter_In. split; [apply in_all_bytes|exact F].
Qed.

Definition the_blanks : list ascii := Eval vm_compute in some_bytes blank.

Definition the_spaces : list ascii := Eval vm_compute in some_bytes (fun c => blank c && negb (Ascii.eqb c LF)).

Definition the_digits : list ascii := Eval vm_compute in some_bytes digit.

Lemma the_blanks_eq : the_blanks = some_bytes blank.
Proof. vm_compute. reflexivity. Qed.

Lemma the_spaces_eq : the_spaces = some_bytes (fun c => blank c && negb (Ascii.eqb c LF)).
Proof. vm_compute. reflexivity. Qed.

Lemma the_digits_eq : the_digits = some_bytes digit.
Proof. vm_compute. reflexivity. Qed.

Definition skips (m : N) : bool :=
  match accepts m with None => true | Some _ => false end &&
  forallb (fun c => match moves m [c] with Some (Skip m') => N.eqb m' m | _ => false end) the_spaces.

(** For each state: its mode skips spaces, finds names, numbers and strings where they are allowed, and the tokens with
    one spelling that are allowed. *)
Definition halts (k : N) : bool :=
  match moves k [] with None => true | _ => false end &&
  forallb (fun c => match moves k [c] with None => true | _ => false end) the_blanks.

Definition row_ok (s : N) : bool :=
  match lex_mode s with
  | None => forallb (fun x => sym_eqb x T_end || negb (allows s x)) all_syms
  | Some m =>
    (skips m || forallb (fun x => existsb (sym_eqb x) [T_doc_comment_content; T_comment; T_POUND_POUND] || negb (allows s x)) all_syms) &&
    (negb (allows s T_identifier_token1) || existsb (N.eqb m) naming) &&
    (negb (allows s T_number) ||
     forallb (fun c => match moves m [c] with Some (Advance k) => N.eqb k 180 | _ => false end) the_digits) &&
    (negb (allows s T_string) || match moves m [""""%char] with Some (Advance k) => N.eqb k 8 | _ => false end) &&
    (negb (allows s T_LF) || match moves m [LF] with Some (Advance k) => N.eqb k 45 | _ => false end) &&
    (negb (allows s T_end) || N.eqb s 0 || match moves m [] with Some (Advance k) => N.eqb k 43 | _ => false end) &&
    (negb (allows s T_print) || negb (hasty m)) &&
    forallb (fun x =>
      match word x with
      | Some w =>
        negb (allows s x) || N.eqb s 0 || sym_eqb x T_POUND_POUND ||
        match walk m w with
        | Some k => match accepts k with Some y => sym_eqb x y | None => false end && halts k
        | None => false
        end
      | None => true
      end) all_syms
  end.

Lemma rows_check : forallb row_ok all_rows = true.
Proof. vm_compute. reflexivity. Qed.

Lemma row_facts s x : allows s x = true -> row_ok s = true.
Proof. apply every_row, rows_check. Qed.

Lemma decode x : nth (N.to_nat (code x)) all_syms T_end = x.
Proof. destruct x; reflexivity. Qed.

Lemma all_syms_complete x : In x all_syms.
Proof.
  rewrite <- (decode x). apply nth_In. change (length all_syms) with 110.
  assert (code x < 110)%N by (destruct x; reflexivity). lia.
Qed.

Lemma every_sym (f : sym -> bool) : forallb f all_syms = true -> forall x, f x = true.
Proof. intros H x. rewrite forallb_forall in H. apply H, all_syms_complete. Qed.

Lemma sym_eqb_eq x y : sym_eqb x y = true <-> x = y.
Proof.
  split; [|intros ->; apply N.eqb_refl]. unfold sym_eqb. intros E. apply N.eqb_eq in E.
  rewrite <- (decode x), <- (decode y), E. reflexivity.
Qed.

(** Spaces before a token that is found. *)
Lemma spaces_found b : forall fuel m r bl best x w r',
  skips m = true -> spaces b ->
  (forall fuel' bl', fuel <= fuel' -> lex_run fuel' m r bl' [] best = Found (Token x (rev bl') w r')) ->
  lex_run (length b + fuel) m (b ++ r) bl [] best = Found (Token x (rev bl ++ b) w r').
Proof.
  induction b as [|c b IH]; intros fuel m r bl best x w r' K B R.
  - cbn [length app]. rewrite app_nil_r. apply R. lia.
  - unfold spaces in B. cbn [forallb] in B. apply andb_true_iff in B as [C B].
    pose proof K as K'. unfold skips in K'. apply andb_true_iff in K' as [A M].
    destruct (accepts m) eqn:E; [discriminate|].
    pose proof (some_byte _ _ the_spaces the_spaces_eq M c C) as Mc. cbv beta in Mc.
    destruct (moves m [c]) as [[|m']|] eqn:Mv; try discriminate. apply N.eqb_eq in Mc. subst m'.
    cbn [length app Nat.add]. rewrite lex_run_step. cbv zeta. rewrite (moves_head m c (b ++ r) []), Mv, E. cbn [app].
    rewrite (IH fuel m r (c :: bl) best x w r' K B R). cbn [rev]. rewrite <- app_assoc. reflexivity.
Qed.

(** A token that the walk of its text finds is found after spaces. *)
Lemma walk_in s m b w r k x :
  lex_mode s = Some m -> skips m = true -> spaces b ->
  walk m w = Some k -> accepts k = Some x -> moves k r = None ->
  lex_in s (b ++ w ++ r) = Ahead (Token x b w r).
Proof.
  intros Lm K B W A M. unfold lex_in. rewrite Lm. unfold lex.
  replace (length (b ++ w ++ r) + 3) with (length b + (length (w ++ r) + 3)) by (rewrite !app_length; lia).
  rewrite (spaces_found b _ m (w ++ r) [] None x w r K B); [reflexivity|].
  intros fuel' bl' L. erewrite walk_found; [reflexivity|exact W|exact A|exact M|].
  rewrite app_length in L. lia.
Qed.

Lemma row_mode s x :
  allows s x = true -> existsb (sym_eqb x) [T_end; T_doc_comment_content; T_comment; T_POUND_POUND] = false ->
  exists m, lex_mode s = Some m /\ skips m = true.
Proof.
  intros A X. pose proof (row_facts _ _ A) as R. unfold row_ok in R.
  cbn [existsb] in X. destruct (lex_mode s) as [m|].
  - exists m. split; [reflexivity|]. repeat (apply andb_true_iff in R as [R _]).
    apply orb_true_iff in R as [R|R]; [exact R|].
    pose proof (every_sym _ R x) as Y. cbv beta in Y. rewrite A in Y. cbn [existsb negb] in Y.
    destruct (sym_eqb x T_end); [discriminate X|]. cbn [orb] in X. rewrite X in Y. discriminate.
  - pose proof (every_sym _ R x) as Y. cbv beta in Y. rewrite A in Y.
    destruct (sym_eqb x T_end); [discriminate X|]. discriminate.
Qed.

Lemma row_end s m :
  lex_mode s = Some m -> row_ok s = true ->
  (allows s T_identifier_token1 = true -> In m naming) /\
  (allows s T_number = true -> forall c, digit c = true -> moves m [c] = Some (Advance 180)) /\
  (allows s T_string = true -> moves m [""""%char] = Some (Advance 8)) /\
  (allows s T_LF = true -> moves m [LF] = Some (Advance 45)) /\
  (allows s T_end = true -> s <> 0%N -> moves m [] = Some (Advance 43)) /\
  (allows s T_print = true -> hasty m = false) /\
  (forall x w, word x = Some w -> allows s x = true -> s <> 0%N -> x <> T_POUND_POUND ->
     exists k, walk m w = Some k /\ accepts k = Some x /\ halts k = true).
Proof.
  intros Lm R. unfold row_ok in R. rewrite Lm in R.
  apply andb_true_iff in R as [R R8]. apply andb_true_iff in R as [R R7]. apply andb_true_iff in R as [R R6].
  apply andb_true_iff in R as [R R5]. apply andb_true_iff in R as [R R4]. apply andb_true_iff in R as [R R3].
  apply andb_true_iff in R as [_ R2]. repeat split.
  - intros A. rewrite A in R2. cbn [negb orb] in R2. apply existsb_exists in R2 as (y & I & E). apply N.eqb_eq in E.
    subst y. exact I.
  - intros A c D. rewrite A in R3. cbn [negb orb] in R3. pose proof (some_byte _ _ the_digits the_digits_eq R3 c D) as H.
    cbv beta in H. destruct (moves m [c]) as [[k|]|]; try discriminate. apply N.eqb_eq in H. subst k. reflexivity.
  - intros A. rewrite A in R4. cbn [negb orb] in R4. destruct (moves m [""""%char]) as [[k|]|]; try discriminate.
    apply N.eqb_eq in R4. subst k. reflexivity.
  - intros A. rewrite A in R5. cbn [negb orb] in R5. destruct (moves m [LF]) as [[k|]|]; try discriminate.
    apply N.eqb_eq in R5. subst k. reflexivity.
  - intros A Z. rewrite A in R6. apply N.eqb_neq in Z. rewrite Z in R6. cbn [negb orb] in R6.
    destruct (moves m []) as [[k|]|]; try discriminate. apply N.eqb_eq in R6. subst k. reflexivity.
  - intros A. rewrite A in R7. cbn [negb orb] in R7. apply negb_true_iff in R7. exact R7.
  - intros x w W A Z P. pose proof (every_sym _ R8 x) as H. cbv beta in H. rewrite W, A in H.
    apply N.eqb_neq in Z. rewrite Z in H. destruct (sym_eqb x T_POUND_POUND) eqn:E.
    { apply sym_eqb_eq in E. contradiction. }
    cbn [negb orb] in H. destruct (walk m w) as [k|]; [|discriminate]. exists k. split; [reflexivity|].
    apply andb_true_iff in H as [H1 H2]. destruct (accepts k) as [y|]; [|discriminate].
    apply sym_eqb_eq in H1. subst y. auto.
Qed.

Lemma halts_moves k r : halts k = true -> match r with [] => True | c :: _ => blank c = true end -> moves k r = None.
Proof.
  unfold halts. intros H B. apply andb_true_iff in H as [H1 H2]. destruct r as [|c r].
  - destruct (moves k []); [discriminate|reflexivity].
  - rewrite (moves_head k c r []). pose proof (some_byte _ _ the_blanks the_blanks_eq H2 c B) as M. cbv beta in M.
    destruct (moves k [c]); [discriminate|reflexivity].
Qed.

(** Every token with one spelling is found where it is allowed, when a blank follows. *)
Theorem word_found s x w b r :
  s <> 0%N -> allows s x = true -> word x = Some w -> x <> T_POUND_POUND -> spaces b ->
  match r with [] => True | c :: _ => blank c = true end ->
  lex_in s (b ++ w ++ r) = Ahead (Token x b w r).
Proof.
  intros Z A W P B H. destruct (row_mode s x A) as (m & Lm & K).
  { cbn [existsb]. destruct x; try reflexivity; try discriminate W. contradiction. }
  destruct (row_end s m Lm (row_facts _ _ A)) as (_ & _ & _ & _ & _ & _ & F).
  destruct (F x w W A Z P) as (k & Wk & Ak & Hk).
  exact (walk_in s m b w r k x Lm K B Wk Ak (halts_moves _ _ Hk H)).
Qed.

Lemma naming_mode m : In m naming -> In m modes.
Proof. intros I. repeat (destruct I as [<-|I]; [cbn; tauto|]). destruct I. Qed.

Theorem name_found s w b r :
  allows s T_identifier_token1 = true -> is_name w = true -> spaces b -> stops r ->
  exists x, lex_in s (b ++ w ++ r) = Ahead (Token x b w r) /\ (x = T_identifier_token1 \/ word x = Some w).
Proof.
  intros A N B St. destruct (row_mode s _ A eq_refl) as (m & Lm & K).
  destruct (row_end s m Lm (row_facts _ _ A)) as (F & _). pose proof (F A) as I.
  destruct (naming_walk _ _ I N) as (k & W & Wk). pose proof (worded_stops _ _ Wk St) as M.
  pose proof Wk as K'. unfold worded in K'. apply andb_true_iff in K' as [_ K'].
  destruct (accepts k) as [x|] eqn:Ak; [|discriminate]. exists x. split.
  - exact (walk_in s m b w r k x Lm K B W Ak M).
  - apply orb_true_iff in K' as [K'|K'].
    + right.
      pose proof (fits_sound _ _ _ (state_accepts _ _ Ak) (walk_sat _ _ _ [] W (mode_shape _ (naming_mode _ I)))) as Sp.
      cbn [app] in Sp. inversion Sp; subst; try discriminate K'; assumption.
    + left. apply sym_eqb_eq. exact K'.
Qed.

Theorem number_found s w b r :
  allows s T_number = true -> w <> [] -> forallb digit w = true -> spaces b ->
  match r with [] => True | c :: _ => digit c = false end ->
  lex_in s (b ++ w ++ r) = Ahead (Token T_number b w r).
Proof.
  intros A N D B H. destruct (row_mode s _ A eq_refl) as (m & Lm & K).
  destruct (row_end s m Lm (row_facts _ _ A)) as (_ & F & _). specialize (F A).
  destruct w as [|c w]; [contradiction|]. cbn [forallb] in D. apply andb_true_iff in D as [Dc D].
  apply (walk_in s m b (c :: w) r 180%N); [exact Lm|exact K|exact B| |reflexivity|].
  - cbn [walk]. rewrite (F c Dc). clear - D. induction w as [|d w IH]; [reflexivity|].
    cbn [forallb] in D. apply andb_true_iff in D as [Dd D]. cbn [walk]. rewrite moves_cons.
    change (snd (lex_state 180)) with [(CIn 48 57, Advance 180)]. cbn [pick holds].
    unfold digit, between in Dd. rewrite Dd. exact (IH D).
  - destruct r as [|d r]; [reflexivity|]. rewrite moves_cons.
    change (snd (lex_state 180)) with [(CIn 48 57, Advance 180)]. cbn [pick holds].
    unfold digit, between in H. rewrite H. reflexivity.
Qed.

Lemma N_of_ascii_eqb c d : N.eqb (N_of_ascii c) (N_of_ascii d) = Ascii.eqb c d.
Proof.
  destruct (Ascii.eqb_spec c d) as [->|H]; [apply N.eqb_refl|].
  apply N.eqb_neq. intros E. apply H. rewrite <- (ascii_N_embedding c), <- (ascii_N_embedding d), E. reflexivity.
Qed.

Lemma quotable_walk b : quotable b -> walk 8 b = Some 8%N.
Proof.
  induction 1 as [|s c Q IH N1 N2 N3|s c Q IH I]; [reflexivity| |]; rewrite (walk_app _ _ _ _ IH); cbn [walk].
  - rewrite moves_cons. change (snd (lex_state 8)) with [(CEq 34, Advance 181); (CEq 92, Advance 40); (CNe 0, Advance 8)]. cbn [pick holds].
    change 34%N with (N_of_ascii """"). change 92%N with (N_of_ascii "\"). change 0%N with (N_of_ascii NUL).
    rewrite !N_of_ascii_eqb. apply Ascii.eqb_neq in N1, N2, N3. rewrite N1, N2, N3. reflexivity.
  - change (moves 8 ["\"%char]) with (Some (Advance 40)). cbv iota. rewrite moves_cons.
    change (snd (lex_state 40)) with [(CAnd (CNe 0) (CNe 10), Advance 8)]. cbn [pick holds].
    change 10%N with (N_of_ascii LF). change 0%N with (N_of_ascii NUL).
    rewrite !N_of_ascii_eqb. unfold inline in I. apply andb_true_iff in I as [I1 I2]. rewrite I1, I2. reflexivity.
Qed.

Theorem string_found s w b r :
  allows s T_string = true -> quotable w -> spaces b ->
  lex_in s (b ++ ([""""%char] ++ w ++ [""""%char]) ++ r) = Ahead (Token T_string b ([""""%char] ++ w ++ [""""%char]) r).
Proof.
  intros A Q B. destruct (row_mode s _ A eq_refl) as (m & Lm & K).
  destruct (row_end s m Lm (row_facts _ _ A)) as (_ & _ & F & _). specialize (F A).
  apply (walk_in s m b _ r 181%N); [exact Lm|exact K|exact B| |reflexivity|].
  - cbn [walk app]. rewrite F. rewrite (walk_app _ _ _ _ (quotable_walk _ Q)). reflexivity.
  - unfold moves. change (snd (lex_state 181)) with (@nil (cond * move)). reflexivity.
Qed.

Theorem newline_found s b r :
  allows s T_LF = true -> spaces b -> match r with [] => True | c :: _ => c <> LF end ->
  lex_in s (b ++ [LF] ++ r) = Ahead (Token T_LF b [LF] r).
Proof.
  intros A B H. destruct (row_mode s _ A eq_refl) as (m & Lm & K).
  destruct (row_end s m Lm (row_facts _ _ A)) as (_ & _ & _ & F & _). specialize (F A).
  apply (walk_in s m b [LF] r 45%N); [exact Lm|exact K|exact B| |reflexivity|].
  - cbn [walk]. rewrite F. reflexivity.
  - destruct r as [|c r]; [reflexivity|]. rewrite moves_cons.
    change (snd (lex_state 45)) with [(CEq 10, Advance 45)]. cbn [pick holds].
    change 10%N with (N_of_ascii LF). rewrite N_of_ascii_eqb. apply Ascii.eqb_neq in H. rewrite H. reflexivity.
Qed.

Theorem lex_in_name_whole s t b : lex_in s t = Ahead b -> t_sym b = T_identifier_token1 -> stops (t_rest b).
Proof.
  unfold lex_in. destruct (lex_mode s) as [m|]; [|discriminate].
  destruct (lex m t) eqn:E; try discriminate; [intros H; injection H as <-; exact (lex_name_whole _ _ _ E)|].
  destruct (lex 0 t) eqn:E0; try discriminate. intros H. injection H as <-. exact (lex_name_whole _ _ _ E0).
Qed.

Theorem lex_in_number_whole s t b :
  lex_in s t = Ahead b -> t_sym b = T_number -> match t_rest b with [] => True | c :: _ => digit c = false end.
Proof.
  unfold lex_in. destruct (lex_mode s) as [m|]; [|discriminate].
  destruct (lex m t) eqn:E; try discriminate; [intros H; injection H as <-; exact (lex_number_whole _ _ _ E)|].
  destruct (lex 0 t) eqn:E0; try discriminate. intros H. injection H as <-. exact (lex_number_whole _ _ _ E0).
Qed.

(** Where a statement may begin, keywords are whole words. *)
Theorem lex_in_keyword_whole s t b :
  allows s T_print = true -> lex_in s t = Ahead b -> keyword (t_sym b) = true -> stops (t_rest b).
Proof.
  intros A. unfold lex_in. destruct (lex_mode s) as [m|] eqn:Lm; [|discriminate].
  destruct (row_end s m Lm (row_facts _ _ A)) as (_ & _ & _ & _ & _ & F & _). specialize (F A).
  destruct (lex m t) eqn:E; try discriminate; [intros H; injection H as <-; exact (lex_keyword_whole _ _ _ F E)|].
  destruct (lex 0 t) eqn:E0; try discriminate. intros H. injection H as <-. exact (lex_keyword_whole 0 _ _ eq_refl E0).
Qed.

(** ** Where the lexer does not do what one expects *)

Lemma keyword_cut : exists s t b, lex_in s t = Ahead b /\ keyword (t_sym b) = true /\ ~ stops (t_rest b).
Proof.
  exists 115%N, (lit " fnord() {}"), (Token T_fn (lit " ") (lit "fn") (lit "ord() {}")).
  split; [vm_compute; reflexivity|]. split; [reflexivity|]. intros H. vm_compute in H. discriminate.
Qed.

Lemma comment_runs_on :
  exists s t b u, lex_in s t = Ahead b /\ t_sym b = T_comment /\ t = lit "#" ++ [LF] ++ u /\ t_rest b <> [LF] ++ u.
Proof.
  exists 1%N, (lit "#" ++ [LF] ++ lit "print 1" ++ [LF]), (Token T_comment [] (lit "#" ++ [LF] ++ lit "print 1") [LF]),
    (lit "print 1" ++ [LF]).
  split; [vm_compute; reflexivity|]. split; [reflexivity|]. split; [reflexivity|]. discriminate.
Qed.
