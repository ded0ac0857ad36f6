(** * Recipes that can be written down are read, and how a build file is laid out does not matter. *)

From Coq Require Import ZArith Arith Ascii String Lia Bool List.
From Verif Require Import Base Build FlAst FlTables FlParse FlRead SpecLex SpecSyntax ReadGrammar SyntaxProofs FlSources FlState FlInterp Bob SpecBob Plan SpecPlan
  SpecFiles SpecBuild SpecHistory Project SpecProject RecipeProofs BuildFile SpecText PropertiesBuild.
Import ListNotations.
Local Open Scope nat_scope.

Lemma says_read t ss : says t ss -> script_in t = Some ss.
Proof. intros (ks & e & S0 & L & ->). exact (script_read ss ks e S0 L). Qed.

(** ** Layout *)

Lemma starts_in c : forall w v, starts v (w ++ [c]) = true -> In c v.
Proof.
  induction w as [|d w IH]; intros [|a v] H; cbn [app starts] in H; try discriminate.
  - apply andb_true_iff in H as [E _]. apply Ascii.eqb_eq in E. left. symmetry. exact E.
  - apply andb_true_iff in H as [_ H]. right. exact (IH v H).
Qed.

Lemma words_have_no_blanks :
  forallb (fun x => match word x with Some v => negb (existsb (Ascii.eqb " ") v) | None => true end) all_syms = true.
Proof. vm_compute. reflexivity. Qed.

Lemma joins_blank w : joins w " " = false.
Proof.
  unfold joins. change (wordly " ") with false. rewrite andb_false_r. cbn [orb]. apply not_true_iff_false. intros H.
  apply existsb_exists in H as (x & I & H). pose proof words_have_no_blanks as F. rewrite forallb_forall in F. specialize (F x I).
  cbv beta in F, H. destruct (word x) as [v|]; [|discriminate]. apply starts_in in H. apply negb_true_iff in F.
  assert (existsb (Ascii.eqb " ") v = true) as T by (apply existsb_exists; exists " "%char; split; [exact H|reflexivity]). congruence.
Qed.

Definition spaced (k : tok) : Prop := k_blank k = BLANK /\ k_sym k <> T_comment.

Lemma spaced_laid ks : Forall spaced ks -> forall far, laid far ks [].
Proof.
  induction 1 as [|k ks [B N] F IH]; intros far.
  - destruct far; constructor.
  - cbn [laid]. split; [rewrite B; destruct far; [reflexivity|vm_compute; reflexivity]|]. split; [|apply IH].
    destruct F as [|k' ks' [B' _] _]; [destruct (k_sym k); exact Logic.I|].
    unfold written, apart. cbn [flat_map]. rewrite B'. cbn [BLANK lit list_ascii_of_string app].
    destruct (k_sym k); try reflexivity; try apply joins_blank; [discriminate|contradiction].
Qed.

(** ** Tokens *)

Lemma kw_is x : word x <> None -> is x (kw x).
Proof. intros H. unfold kw. destruct (word x) as [v|] eqn:E; [|contradiction]. split; [reflexivity|]. split; [exact E|reflexivity]. Qed.

Lemma nm_is x : plain_name x -> name_is x (nm x).
Proof. intros [H W]. repeat split; assumption. Qed.

Lemma qt_is s : quotable s -> string_is s (qt s).
Proof. intros H. repeat split. exact H. Qed.

Ltac kw_ := apply kw_is; discriminate.
Ltac known_ := apply nm_is; split; [reflexivity|apply no_word; vm_compute; reflexivity].

Lemma commas_more {A} n (f : A -> list tok) (g : A -> expr) l : l <> [] ->
  (forall x, In x l -> expr_is true 1 (g x) (f x)) -> more_is n (map g l) (flat_map (fun y => kw T_COMMA :: f y) l).
Proof.
  induction l as [|x l IH] using rev_ind; [contradiction|]. intros _ H. rewrite map_app, flat_map_app. cbn [map flat_map]. rewrite app_nil_r.
  destruct l as [|y l].
  - cbn [map flat_map app]. apply (more_one n _ []); [kw_|apply no_notes|]. apply H. left. reflexivity.
  - apply (more_next n _ _ _ []); [|kw_|apply no_notes|].
    + apply IH; [discriminate|]. intros z I. apply H. apply in_or_app. left. exact I.
    + apply H. apply in_or_app. right. left. reflexivity.
Qed.

Lemma commas_list {A} n (f : A -> list tok) (g : A -> expr) l : l <> [] ->
  (forall x, In x l -> expr_is true 1 (g x) (f x)) -> list_is n (map g l) (commas f l).
Proof.
  destruct l as [|x l]; [contradiction|]. intros _ H. cbn [map commas]. destruct l as [|y l].
  - cbn [flat_map map]. rewrite app_nil_r. apply list_one, H. left. reflexivity.
  - apply list_more; [apply H; left; reflexivity|]. apply commas_more; [discriminate|]. intros z I. apply H. right. exact I.
Qed.

Lemma vec_written {A} (f : A -> list tok) (g : A -> expr) o m l :
  (forall x, In x l -> expr_is true 1 (g x) (f x)) -> expr_is o m (EVec (map g l)) (kw T_LBRACK :: commas f l ++ [kw T_RBRACK]).
Proof.
  intros H. destruct l as [|x l]; [apply (is_vec_empty o m _ []); [kw_|constructor|kw_]|].
  apply (is_vec o m _ []); [kw_|constructor| |kw_]. apply commas_list; [discriminate|exact H].
Qed.

Lemma called_written e ke x args o m ks :
  expr_is false 7 e ke -> plain_name x -> list_is false args ks -> expr_is o m (method_call e x args) (called ke x ks).
Proof. intros E N L. apply is_call; [|kw_|exact L|kw_]. apply is_access; [exact E|kw_|exact (nm_is _ N)]. Qed.

Ltac plain_ := split; [reflexivity|apply no_word; vm_compute; reflexivity].

Lemma one_written o m i : one_plain i -> expr_is o m (one_expr i) (one_toks i).
Proof.
  destruct i as [t|x|x k]; cbn [one_plain one_expr one_toks].
  - intros Q. apply is_string, qt_is, Q.
  - intros N. apply is_id, nm_is, N.
  - intros (N & K & D). apply (is_index o m (EId x) [nm x] (kw T_LBRACK) [] (ENum k) [nu k]); [apply is_id, nm_is, N|kw_|constructor| |kw_].
    apply is_number. repeat split; assumption.
Qed.

Lemma test_written y c : plain_name y -> forall o m, test_plain o m c -> expr_is o m (test_expr y c) (test_toks y c).
Proof.
  intros Y. induction c as [t|t|c IH|a IHa b IHb|a IHa b IHb]; intros o m; cbn [test_plain test_expr test_toks].
  - intros Q. apply called_written; [apply is_id, nm_is, Y|plain_|apply list_one, is_string, qt_is, Q].
  - intros Q. apply called_written; [apply is_id, nm_is, Y|plain_|apply list_one, is_string, qt_is, Q].
  - intros [-> H]. apply (is_unary m T_BANG (kw T_BANG)); [right; left; reflexivity|kw_|exact (IH _ _ H)].
  - intros (M & Ha & Hb). apply (is_binary o m 2 _ _ T_and_operator (kw T_and_operator)); [exact M|left; reflexivity|exact (IHa _ _ Ha)|kw_|exact (IHb _ _ Hb)].
  - intros (M & Ha & Hb). apply (is_binary o m 1 _ _ T_PIPE_PIPE (kw T_PIPE_PIPE)); [exact M|left; reflexivity|exact (IHa _ _ Ha)|kw_|exact (IHb _ _ Hb)].
Qed.

Lemma given_written g : forall o m, given_plain m g -> expr_is o m (given_expr g) (given_toks g).
Proof.
  induction g as [l|x|dir|g IH y c|g IHg h IHh]; intros o m; cbn [given_plain given_expr given_toks].
  - intros F. apply vec_written. intros x I. rewrite Forall_forall in F. exact (one_written _ _ x (F x I)).
  - intros N. apply is_id, nm_is, N.
  - intros Q. apply called_written; [apply is_id; known_|plain_|apply list_one, is_string, qt_is, Q].
  - intros (G & Y & C). apply called_written; [exact (IH _ _ G)|plain_|]. apply list_one, (is_lambda _ _ _ _ _ []); [kw_| |kw_|constructor|exact (test_written y c Y _ _ C)].
    apply lambda_params_some. apply (params_some y [nm y] [] []); [apply param_some; [exact (nm_is _ Y)|apply typed_none]|apply rest_none].
  - intros (M & G & H). apply (is_binary o m 4 _ _ T_PLUS (kw T_PLUS)); [exact M|left; reflexivity|exact (IHg _ _ G)|kw_|exact (IHh _ _ H)].
Qed.

Lemma new_written o m k flags : Forall quotable flags -> expr_is o m (new_expr k flags) (new_toks k flags).
Proof.
  intros F. unfold new_expr, new_toks. apply is_call; [|kw_| |kw_].
  - apply is_id. destruct k; known_.
  - apply list_one. unfold strs_lit. apply vec_written. intros x I. rewrite Forall_forall in F. apply is_string, qt_is, (F x I).
Qed.

Lemma let_written x e ks : plain_name x -> expr_is true 1 e ks -> stmt_is (SLet false x (Some e)) (kw T_let :: nm x :: kw T_EQ :: ks).
Proof.
  intros N E. apply (is_let false [] (kw T_let) x (nm x) [] (Some e) (kw T_EQ :: ks));
    [apply qualifiers_none|kw_|exact (nm_is _ N)|apply typed_none| |left; reflexivity]. apply initial_some; [kw_|exact E].
Qed.

Lemma line_written l : line_plain l -> stmt_is (line_stmt l) (line_toks l).
Proof.
  destruct l as [x o flags|x o t g|x i|x g]; unfold line_toks; cbn [line_plain line_stmt line_name value_toks].
  - intros [N F]. apply let_written; [exact N|apply new_written, F].
  - intros (N & T & G). apply let_written; [exact N|]. apply called_written; [|destruct o as [|[]]; plain_|apply list_one, given_written, G].
    destruct t; [apply new_written, T|apply is_id, nm_is, T].
  - intros [N I]. apply let_written; [exact N|apply one_written, I].
  - intros [N G]. apply let_written; [exact N|apply given_written, G].
Qed.

Lemma pair_written kv : one_plain (fst kv) /\ one_plain (snd kv) -> item_is (one_expr (fst kv), one_expr (snd kv)) (pair_toks kv).
Proof. intros [K V]. apply (item_some _ _ _ []); [apply one_written, K|kw_|constructor|apply one_written, V]. Qed.

Lemma install_written l : Forall (fun kv => one_plain (fst kv) /\ one_plain (snd kv)) l -> stmt_is (install_stmt l) (install_toks l).
Proof.
  intros F. unfold install_stmt, install_toks. apply is_assign; [known_|kw_|].
  destruct l as [|x l]; [apply (is_map_empty _ _ _ []); [kw_|constructor|kw_]|]. cbn [map commas]. inversion F as [|? ? Fx Fl]; subst.
  apply (is_map _ _ _ []); [kw_|constructor| |kw_]. destruct l as [|y l].
  - cbn [flat_map map]. rewrite app_nil_r. apply items_one, pair_written, Fx.
  - apply items_more; [apply pair_written, Fx|].
    assert (Ne : y :: l <> []) by discriminate. revert Ne Fl. generalize (y :: l). clear. intros l. induction l as [|x l IH] using rev_ind; [contradiction|].
    intros _ F. apply Forall_app in F as [Fl Fx]. inversion Fx; subst. rewrite map_app, flat_map_app. cbn [map flat_map]. rewrite app_nil_r.
    destruct l as [|y l].
    + cbn [map flat_map app]. apply (more_items_one _ []); [kw_|constructor|]. apply pair_written. assumption.
    + apply (more_items_next _ _ _ []); [|kw_|constructor|apply pair_written; assumption]. apply IH; [discriminate|exact Fl].
Qed.

Lemma run_written g : given_plain 1 g -> stmt_is (run_stmt g) (run_toks g).
Proof. intros G. apply is_assign; [known_|kw_|apply given_written, G]. Qed.

(** ** Scripts *)

Lemma ended s ks : stmt_is s ks -> line_is s (ks ++ [nl]).
Proof. intros H. apply (line_ended s ks [] nl); [exact H|constructor|]. right. split; [reflexivity|]. split; [discriminate|]. split; reflexivity. Qed.

Lemma lines_snoc ss ks s ks' : lines_is ss ks -> stmt_is s ks' -> lines_is (ss ++ [s]) (ks ++ ks' ++ [nl]).
Proof. intros L H. apply (lines_next ss ks [] s); [exact L|constructor|exact (ended _ _ H)]. Qed.

Lemma recipe_is r : recipe_plain r -> script_is (script r) (recipe_toks r).
Proof.
  intros (L & I & R). unfold script, recipe_toks.
  match goal with |- script_is _ ?ks => replace ks with ([] ++ ks ++ []) by apply app_nil_r end.
  apply script_lines; [constructor| |constructor].
  assert (H : lines_is (SImport false [lit "bob"] :: map line_stmt (recipe_lines r))
    ([kw T_import; nm (lit "bob"); nl] ++ flat_map (fun l => line_toks l ++ [nl]) (recipe_lines r))).
  { revert L. generalize (recipe_lines r). clear. intros ls. induction ls as [|l ls IH] using rev_ind; intros F.
    - apply lines_one. apply (ended _ [kw T_import; nm (lit "bob")]). apply is_import; [kw_|]. apply path_one. known_.
    - apply Forall_app in F as [Fs Fl]. inversion Fl; subst. rewrite map_app, flat_map_app. cbn [map flat_map]. rewrite app_nil_r.
      change (SImport false [lit "bob"] :: map line_stmt ls ++ [line_stmt l]) with ((SImport false [lit "bob"] :: map line_stmt ls) ++ [line_stmt l]).
      rewrite app_assoc. apply lines_snoc; [exact (IH Fs)|apply line_written; assumption]. }
  rewrite !app_assoc. change (SImport false [lit "bob"] :: (map line_stmt (recipe_lines r) ++ some_stmt install_stmt (recipe_install r)) ++ some_stmt run_stmt (recipe_run r))
    with (((SImport false [lit "bob"] :: map line_stmt (recipe_lines r)) ++ some_stmt install_stmt (recipe_install r)) ++ some_stmt run_stmt (recipe_run r)).
  assert (H' : lines_is ((SImport false [lit "bob"] :: map line_stmt (recipe_lines r)) ++ some_stmt install_stmt (recipe_install r))
    (([kw T_import; nm (lit "bob"); nl] ++ flat_map (fun l => line_toks l ++ [nl]) (recipe_lines r)) ++
     match recipe_install r with Some l => install_toks l ++ [nl] | None => [] end)).
  { destruct (recipe_install r) as [l|]; cbn [some_stmt]; [apply lines_snoc; [exact H|exact (install_written l I)]|]. rewrite !app_nil_r. exact H. }
  destruct (recipe_run r) as [g|]; cbn [some_stmt]; [apply lines_snoc; [exact H'|exact (run_written g R)]|]. rewrite !app_nil_r. exact H'.
Qed.

Ltac spaces_ := repeat first [apply Forall_nil | apply Forall_cons; [split; [reflexivity|discriminate]|] | apply Forall_app; split].

Lemma commas_spaced {A} (f : A -> list tok) l : (forall x, Forall spaced (f x)) -> Forall spaced (commas f l).
Proof.
  intros H. destruct l as [|x l]; [constructor|]. cbn [commas]. apply Forall_app. split; [apply H|].
  induction l as [|y l IH]; [constructor|]. cbn [flat_map app]. apply Forall_cons; [split; [reflexivity|discriminate]|]. apply Forall_app. split; [apply H|exact IH].
Qed.

Lemma one_spaced i : Forall spaced (one_toks i).
Proof. destruct i; cbn [one_toks]; spaces_. Qed.

Lemma called_spaced ks f args : Forall spaced ks -> Forall spaced args -> Forall spaced (called ks f args).
Proof. intros K A. unfold called. spaces_; assumption. Qed.

Lemma test_spaced y c : Forall spaced (test_toks y c).
Proof. induction c; cbn [test_toks]; try (apply called_spaced; spaces_); spaces_; assumption. Qed.

Lemma given_spaced g : Forall spaced (given_toks g).
Proof.
  induction g; cbn [given_toks].
  - spaces_. apply commas_spaced. exact one_spaced.
  - spaces_.
  - apply called_spaced; spaces_.
  - apply called_spaced; [assumption|]. cbn [app]. spaces_. apply test_spaced.
  - spaces_; assumption.
Qed.

Lemma new_spaced o flags : Forall spaced (new_toks o flags).
Proof. unfold new_toks. cbn [app]. spaces_. apply commas_spaced. intros x. spaces_. Qed.

Lemma line_spaced l : Forall spaced (line_toks l).
Proof.
  unfold line_toks. spaces_. destruct l as [x o flags|x o t g|x i|x g]; cbn [value_toks].
  - apply new_spaced.
  - apply called_spaced; [destruct t; [apply new_spaced|cbn [tool_toks]; spaces_]|apply given_spaced].
  - apply one_spaced.
  - apply given_spaced.
Qed.

Lemma recipe_spaced r : Forall spaced (recipe_toks r).
Proof.
  unfold recipe_toks. cbn [app]. spaces_.
  - induction (recipe_lines r) as [|l ls IH]; [constructor|]. cbn [flat_map]. apply Forall_app. split; [|exact IH].
    apply Forall_app. split; [apply line_spaced|]. spaces_.
  - destruct (recipe_install r) as [l|]; [|constructor]. unfold install_toks. spaces_. apply commas_spaced. intros kv. unfold pair_toks. spaces_; apply one_spaced.
  - destruct (recipe_run r) as [g|]; [|constructor]. unfold run_toks. spaces_. apply given_spaced.
Qed.

Theorem recipe_says r : recipe_plain r -> says (written (recipe_toks r) []) (script r).
Proof. intros P. exists (recipe_toks r), []. split; [exact (recipe_is r P)|]. split; [apply spaced_laid, recipe_spaced|reflexivity]. Qed.

(** ** Layout does not matter *)

Lemma same_scripts_sym d d' : same_scripts d d' -> same_scripts d' d.
Proof. intros H q. destruct (H q) as [E|(t & t' & ss & A & B & C & D)]; [left; symmetry; exact E|right; exists t', t, ss; auto]. Qed.

Lemma same_there d d' q : same_scripts d d' -> there d' q = there d q.
Proof. intros H. unfold there. destruct (H q) as [->|(t & t' & ss & -> & -> & _)]; reflexivity. Qed.

Lemma same_finds d d' files : same_scripts d d' -> finds d files -> finds d' files.
Proof.
  intros H [F1 F2]. split.
  - intros q t' ss E S0. destruct (H q) as [Eq|(t & t1 & ss1 & A & B & C & D)].
    + rewrite Eq in E. exact (F1 q t' ss E S0).
    + rewrite B in E. injection E as <-. rewrite (says_read _ _ D) in S0. injection S0 as <-. exact (F1 q t ss1 A (says_read _ _ C)).
  - intros q E. destruct (H q) as [Eq|(t & t1 & ss1 & A & B & _)]; [rewrite Eq in E; exact (F2 q E)|congruence].
Qed.

Theorem same_build sg out listing pow E prefix d d' w rv w' :
  same_scripts d d' -> (exists t ss, d BUILD_PATH = Some t /\ says t ss) ->
  file_build sg out listing pow E prefix d w rv w' -> file_build sg out listing pow E prefix d' w rv w'.
Proof.
  intros H (t0 & ss0 & E0 & S0) (t & ss & ex & files & A & R & Se & F & B). rewrite A in E0. injection E0 as <-.
  rewrite (says_read _ _ S0) in R. injection R as <-.
  assert (exists t', d' BUILD_PATH = Some t' /\ script_in t' = Some ss0) as (t' & A' & R').
  { destruct (H BUILD_PATH) as [Eq|(t1 & t' & ss1 & A1 & A' & C & D)].
    - exists t. rewrite Eq. split; [exact A|exact (says_read _ _ S0)].
    - exists t'. split; [exact A'|]. rewrite A in A1. injection A1 as <-. pose proof (says_read _ _ C) as R1. rewrite (says_read _ _ S0) in R1. injection R1 as <-.
      exact (says_read _ _ D). }
  exists t', ss0, ex, files. split; [exact A'|]. split; [exact R'|]. split; [|split; [exact (same_finds _ _ _ H F)|exact B]].
  intros q. rewrite (same_there d d' q H). apply Se.
Qed.

(** ** Recipes *)

Lemma bob_fl_read : script_in bob_fl_text = Some bob_fl.
Proof. vm_compute. reflexivity. Qed.

Lemma found_bob d prefix exists_ files : has_bob d prefix -> sees d exists_ -> finds d files -> finds_bob exists_ files prefix.
Proof.
  intros [H|[N H]] Se [F _].
  - left. rewrite Se. unfold there. rewrite H. split; [reflexivity|exact (F _ _ _ H bob_fl_read)].
  - right. rewrite !Se. unfold there. rewrite N, H. split; [reflexivity|]. split; [reflexivity|exact (F _ _ _ H bob_fl_read)].
Qed.

Lemma sound_file sg out listing ia srcs links r p d prefix exists_ files :
  sound_recipe sg out listing ia srcs links r p -> has_bob d prefix -> sees d exists_ -> finds d files ->
  sound_script sg out listing exists_ files prefix ia srcs links r p.
Proof. intros [] H Se F. constructor; try assumption. exact (found_bob _ _ _ _ H Se F). Qed.

Definition as_read (d : disk) (q : bytes) : file :=
  match d q with
  | Some t => match script_in t with Some ss => File ss | None => NoFile [] end
  | None => NoFile []
  end.

Lemma as_read_finds d : finds d (as_read d).
Proof. split; [intros q t ss A B; unfold as_read; rewrite A, B; reflexivity|intros q A; exists []; unfold as_read; rewrite A; reflexivity]. Qed.

Theorem file_builds sg out listing pow ia srcs links r p prefix d t E w rv w' :
  sound_recipe sg out listing ia srcs links r p -> has_bob d prefix -> d BUILD_PATH = Some t -> says t (script r) ->
  file_build sg out listing pow E prefix d w rv w' <-> build sg out E (to_build p) w rv w'.
Proof.
  intros SR HB D S0. split.
  - intros (t' & ss & ex & files & A & R & Se & F & B). rewrite D in A. injection A as <-. rewrite (says_read _ _ S0) in R. injection R as <-.
    exact (proj1 (sound_build _ _ _ pow _ _ _ _ _ _ _ _ (sound_file _ _ _ _ _ _ _ _ _ _ _ _ SR HB Se F) E w rv w') B).
  - intros B. exists t, (script r), (there d), (as_read d). split; [exact D|]. split; [exact (says_read _ _ S0)|]. split; [intros q; reflexivity|].
    split; [exact (as_read_finds d)|].
    apply (sound_build _ _ _ pow _ _ _ _ _ _ _ _ (sound_file _ _ _ _ _ _ _ _ _ _ _ _ SR HB (fun q => eq_refl) (as_read_finds d)) E w rv w'). exact B.
Qed.

Theorem file_clean sg out listing pow ia srcs links r p prefix d t E w w' :
  sound_recipe sg out listing ia srcs links r p -> has_bob d prefix -> d BUILD_PATH = Some t -> says t (script r) ->
  setting sg out E ia srcs links -> (forall q, product_dir out q -> files w q = FileSys.Absent) ->
  file_build sg out listing pow E prefix d w 0 w' ->
  (forall it, wanted sg out (to_build p) it ->
     makes (it_out it) (ran w') = S (makes (it_out it) (ran w)) /\
     exists text obj t, files w' (it_out it) = FileSys.File obj t /\ cc_obj E (argv_flags (it_flags it)) (it_src it) (files w) = ToolOk text obj) /\
  (forall k, wanted_link sg out (to_build p) k ->
     makes (lk_out k) (ran w') = S (makes (lk_out k) (ran w)) /\ link_current E (files w') k) /\
  (forall o, ~ wanted_product sg out (to_build p) o -> makes o (ran w') = makes o (ran w)).
Proof.
  intros SR HB D S0 ST Em B. pose proof B as (t' & ss & ex & fs & _ & _ & Se & F & _).
  apply (file_builds sg out listing pow ia srcs links r p prefix d t E w 0%Z w' SR HB D S0) in B.
  exact (C20_clean_build sg out E ia srcs links _ w w' ST (sound_requests _ _ _ _ _ _ _ _ _ _ _ (sound_file _ _ _ _ _ _ _ _ _ _ _ _ SR HB Se F)) Em B).
Qed.

Lemma script_note ss ks cs : script_is ss ks -> comments cs -> script_is ss (ks ++ cs).
Proof.
  intros H C. destruct H as [ms M|ms ss ks ns M L N].
  - apply script_empty, Forall_app. split; assumption.
  - rewrite <- !app_assoc. apply script_lines; [exact M|exact L|]. apply Forall_app. split; assumption.
Qed.

(** ** Histories *)

Lemma file_requests sg out listing ia srcs links r p d prefix :
  sound_recipe sg out listing ia srcs links r p -> has_bob d prefix -> SpecPlan.good_requests sg out ia srcs links (to_build p).
Proof. intros SO HB. exact (sound_requests _ _ _ _ _ _ _ _ _ _ _ (sound_file _ _ _ _ _ _ _ _ d prefix (there d) (as_read d) SO HB (fun q => eq_refl) (as_read_finds d))). Qed.

Theorem file_second sg out listing pow ia srcs links r p prefix d d' t t' E w0 w w1 w2 rv w3 :
  sound_recipe sg out listing ia srcs links r p -> has_bob d prefix -> has_bob d' prefix ->
  d BUILD_PATH = Some t -> says t (script r) -> d' BUILD_PATH = Some t' -> says t' (script r) ->
  setting sg out E ia srcs links -> inputs_needed E ->
  past sg out E ia srcs links w0 w -> next_second sg out E links w -> no_future E (product_dir out) ia w ->
  file_build sg out listing pow E prefix d w 0 w1 ->
  tick w1 <= tick w2 -> (forall q, ~ ia q -> Build.files w2 q = Build.files w1 q) ->
  file_build sg out listing pow E prefix d' w2 rv w3 ->
  ran w3 = ran w2 /\ (forall q, ~ ia q -> Build.files w3 q = Build.files w2 q) /\ ((forall o t f, fst (installer E o t f) = true) -> rv = 0%Z).
Proof.
  intros SO Hb Hb' A S0 A' S0' ST In Pa Ns Nf B1 Tk Fs B2.
  apply (file_builds _ _ _ pow _ _ _ _ _ _ _ _ _ _ _ _ SO Hb A S0) in B1. apply (file_builds _ _ _ pow _ _ _ _ _ _ _ _ _ _ _ _ SO Hb' A' S0') in B2.
  exact (C18_noop_partial sg out E ia srcs links _ w0 w w1 w2 rv w3 ST In Pa Ns Nf (file_requests _ _ _ _ _ _ _ _ _ _ SO Hb) B1 Tk Fs B2).
Qed.

Theorem file_rebuild sg out listing pow ia srcs links r p prefix d d' t t' E w0 w w' wc wc' :
  sound_recipe sg out listing ia srcs links r p -> has_bob d prefix -> has_bob d' prefix ->
  d BUILD_PATH = Some t -> says t (script r) -> d' BUILD_PATH = Some t' -> says t' (script r) ->
  setting sg out E ia srcs links -> past sg out E ia srcs links w0 w -> next_second sg out E links w ->
  (forall q, product_dir out q -> Build.files wc q = FileSys.Absent) ->
  (forall q, SpecBuild.source (product_dir out) ia q -> same_content (Build.files w q) (Build.files wc q)) ->
  file_build sg out listing pow E prefix d w 0 w' -> file_build sg out listing pow E prefix d' wc 0 wc' ->
  forall o, wanted_product sg out (to_build p) o -> same_content (Build.files w' o) (Build.files wc' o).
Proof.
  intros SO Hb Hb' A S0 A' S0' ST Pa Ns Em Sc B1 B2.
  apply (file_builds _ _ _ pow _ _ _ _ _ _ _ _ _ _ _ _ SO Hb A S0) in B1. apply (file_builds _ _ _ pow _ _ _ _ _ _ _ _ _ _ _ _ SO Hb' A' S0') in B2.
  exact (C21_incremental_is_clean_partial sg out E ia srcs links _ w0 w w' wc wc' ST Pa Ns (file_requests _ _ _ _ _ _ _ _ _ _ SO Hb) Em Sc B1 B2).
Qed.
