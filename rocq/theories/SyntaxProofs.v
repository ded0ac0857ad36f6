(** * A script that is written by the syntax is read as that script. *)

From Coq Require Import NArith Arith Ascii String Lia Bool List.
From Verif Require Import Base FlAst FlTables FlParse FlRead SpecLex LexProofs SpecSyntax ReadGrammar ReadProofs.
Import ListNotations.
Local Open Scope nat_scope.

(** ** Tokens *)

Lemma is_told x k : is x k -> x <> T_POUND_POUND -> told k.
Proof. intros (E & W & _) P. apply told_word; rewrite E; [exact W|exact P]. Qed.

Lemma all_nil_r f t ks : matches f t ks -> matches_all [f] [t] ks.
Proof. intros M. rewrite <- (app_nil_r ks). apply matches_cons; [exact M|apply matches_nil]. Qed.

Lemma all_app l cs ks l' cs' ks' : matches_all l cs ks -> matches_all l' cs' ks' ->
  matches_all (l ++ l') (cs ++ cs') (ks ++ ks').
Proof.
  intros M M'. induction M as [|f t ks l cs ks2 Mf M IH|f t ks ms l cs ks2 Mf C N M IH]; [exact M'| |]; cbn [app]; rewrite <- !app_assoc.
  - apply matches_cons; assumption.
  - apply matches_note; try assumption. destruct l; [contradiction|discriminate].
Qed.

Definition leaf (x : sym) (k : tok) : tree := Leaf x (k_blank k) (k_text k) false.

Lemma is_matches x k : is x k -> x <> T_POUND_POUND -> matches (tk x) (leaf x k) [k].
Proof. intros I P. pose proof (is_told _ _ I P) as T. destruct I as (E & W & B). apply matches_tok; assumption. Qed.

Lemma all_is x k l cs ks : is x k -> x <> T_POUND_POUND -> matches_all l cs ks -> matches_all (tk x :: l) (leaf x k :: cs) (k :: ks).
Proof. intros I P M. exact (matches_cons _ _ [k] _ _ _ (is_matches _ _ I P) M). Qed.

Lemma all_closing brk k l cs ks : closing brk k -> matches_all l cs ks ->
  matches_all (Tk T_RBRACE brk :: l) (leaf T_RBRACE k :: cs) (k :: ks).
Proof.
  intros (E & W & B) M. refine (matches_cons _ _ [k] _ _ _ _ M). apply matches_tok; try assumption.
  apply told_word; rewrite E; [rewrite W; reflexivity|discriminate].
Qed.

Definition id_tree (k : tok) : tree :=
  Node N_identifier (production N_identifier (map root_of [tk T_identifier_token1])) [leaf T_identifier_token1 k] false.

Lemma name_matches x k : name_is x k -> matches ident (id_tree k) [k].
Proof.
  intros (E & W & B & N & K). apply matches_node; [discriminate|]. apply all_nil_r. apply matches_tok; try assumption.
  subst x. apply told_name; assumption.
Qed.

Lemma all_name x k l cs ks : name_is x k -> matches_all l cs ks -> matches_all (ident :: l) (id_tree k :: cs) (k :: ks).
Proof. intros I M. exact (matches_cons _ _ [k] _ _ _ (name_matches _ _ I) M). Qed.

(** ** The text of a tree *)

Definition bits (ks : list tok) : list (bytes * bytes) := map (fun k => (k_blank k, k_text k)) ks.

Lemma matches_leaves : (forall f t ks, matches f t ks -> leaves t = bits ks) /\
  (forall l cs ks, matches_all l cs ks -> flat_map leaves cs = bits ks).
Proof.
  apply matches_both; auto.
  - intros f t ks l cs ks' _ A _ B. cbn [flat_map]. rewrite A, B. unfold bits. rewrite map_app. reflexivity.
  - intros f t ks ms l cs ks' _ A _ _ _ B. cbn [flat_map]. rewrite flat_map_app, A, B. unfold bits. rewrite !map_app.
    f_equal. f_equal. clear. induction ms as [|k ms IH]; [reflexivity|]. cbn [map flat_map]. rewrite IH. reflexivity.
Qed.

Lemma text_bits ks : text_of (bits ks) = written ks [].
Proof.
  unfold text_of, written, bits. rewrite app_nil_r. induction ks as [|k ks IH]; [reflexivity|]. cbn [map flat_map fst snd].
  rewrite IH. reflexivity.
Qed.

Lemma source_matches f t ks : matches f t ks -> source t = source_of ks.
Proof.
  intros M. unfold source. rewrite (proj1 matches_leaves _ _ _ M). destruct ks as [|k ks]; [reflexivity|].
  cbn [bits map source_of]. rewrite <- text_bits. reflexivity.
Qed.

Lemma source_tree_all x p l cs ks : matches_all l cs ks -> source (Node x p cs false) = source_of ks.
Proof.
  intros M. unfold source. cbn [leaves]. rewrite (proj2 matches_leaves _ _ _ M). destruct ks as [|k ks]; [reflexivity|].
  cbn [bits map source_of]. rewrite <- text_bits. reflexivity.
Qed.

Lemma source_leaf x k : source (leaf x k) = k_text k.
Proof. unfold source, leaf. cbn. apply app_nil_r. Qed.

Lemma source_node x p y k : source (Node x p [leaf y k] false) = k_text k.
Proof. unfold source, leaf. cbn. apply app_nil_r. Qed.

(** ** Values *)

Definition kv (t : tree) : kid := (t, value_at t).

Lemma value_node x p cs e : value_at (Node x p cs e) = build x p (map kv cs).
Proof. reflexivity. Qed.

Lemma kids_app a b : kids (a ++ b) = kids a ++ kids b.
Proof. apply flat_map_app. Qed.

(** Comments between the parts of a node. *)
Definition noted_kids (ms : list tok) : list kid := map (fun k => (note k, VSkip)) ms.

Lemma note_value k : k_sym k = T_comment -> kv (note k) = (note k, VSkip).
Proof. intros X. unfold kv, note. rewrite X. reflexivity. Qed.

Lemma notes_kids ms : comments ms -> kids (map kv (map note ms)) = noted_kids ms.
Proof.
  induction 1 as [|k ms (c & w & X & _) C IH]; [reflexivity|]. cbn [map]. rewrite (note_value k X).
  change ((note k, VSkip) :: map kv (map note ms)) with ([(note k, VSkip)] ++ map kv (map note ms)). rewrite kids_app, IH.
  unfold kids. cbn [flat_map fst snd noted_kids map]. unfold note. cbn [root]. rewrite X. reflexivity.
Qed.

Lemma all_noted x k ms l cs ks : is x k -> x <> T_POUND_POUND -> comments ms -> l <> [] -> matches_all l cs ks ->
  matches_all (tk x :: l) (leaf x k :: map note ms ++ cs) (k :: ms ++ ks).
Proof. intros A X C N M. exact (matches_note _ _ [k] ms _ _ _ (is_matches _ _ A X) C N M). Qed.

Lemma noted_on x k ms g l cs ks : is x k -> x <> T_POUND_POUND -> comments ms -> matches_all (g :: l) cs ks ->
  matches_all (tk x :: g :: l) (leaf x k :: map note ms ++ cs) (k :: ms ++ ks).
Proof. intros A X C M. apply all_noted; [exact A|exact X|exact C|discriminate|exact M]. Qed.

Lemma all_app_notes l cs ks ms l' cs' ks' : matches_all l cs ks -> l <> [] -> comments ms -> l' <> [] -> matches_all l' cs' ks' ->
  matches_all (l ++ l') (cs ++ map note ms ++ cs') (ks ++ ms ++ ks').
Proof.
  intros M N C N' M'. induction M as [|f t ks l cs ks2 Mf M IH|f t ks ns l cs ks2 Mf Cn Nl M IH]; [contradiction| |].
  - destruct l as [|g l].
    + inversion M; subst. cbn [app]. rewrite app_nil_r. apply matches_note; assumption.
    + cbn [app] in *. rewrite <- app_assoc. apply matches_cons; [exact Mf|]. apply IH. discriminate.
  - cbn [app]. rewrite <- !app_assoc. apply matches_note; [exact Mf|exact Cn|destruct l; [contradiction|discriminate]|]. apply IH, Nl.
Qed.

Lemma notes_fields ms : filter (fun c : kid => negb (extra (fst c))) (map kv (map note ms)) = [].
Proof. induction ms as [|k ms IH]; [reflexivity|exact IH]. Qed.

Lemma field_noted f p a ms b : field_of f p (a ++ map kv (map note ms) ++ b) = field_of f p (a ++ b).
Proof. unfold field_of. rewrite !filter_app, notes_fields. reflexivity. Qed.

(** Nodes of which only the fields are looked at. *)
Lemma build_noted x p a ms b : In x [N_parenthesized_expression; N_lambda; N_index; N_map_item] ->
  build x p (a ++ map kv (map note ms) ++ b) = build x p (a ++ b).
Proof.
  intros I. repeat (destruct I as [<-|I]; [unfold build; cbv beta iota zeta; rewrite !field_noted; reflexivity|]). destruct I.
Qed.

Lemma notes_other x ms : sym_eqb T_comment x = false -> comments ms -> filter (fun c : kid => sym_eqb (root (fst c)) x) (noted_kids ms) = [].
Proof.
  intros N C. induction C as [|k ms (c & w & X & _) C IH]; [reflexivity|]. cbn [noted_kids map filter fst]. unfold note at 1.
  cbn [root]. rewrite X, N. exact IH.
Qed.

(** Things of one kind with commas between them, and comments if [n]. *)
Inductive strung {A : Type} (n : bool) (x : sym) (val : A -> value) : list kid -> list A -> Prop :=
| strung_nil : strung n x val [] []
| strung_comma k l as_ : strung n x val l as_ -> strung n x val ((leaf T_COMMA k, VNothing) :: l) as_
| strung_note k l as_ : n = true -> k_sym k = T_comment -> strung n x val l as_ -> strung n x val ((note k, VSkip) :: l) as_
| strung_item t a l as_ : root t = x -> strung n x val l as_ -> strung n x val ((t, val a) :: l) (a :: as_).

Lemma strung_app {A} n x (val : A -> value) l as_ l' as' :
  strung n x val l as_ -> strung n x val l' as' -> strung n x val (l ++ l') (as_ ++ as').
Proof. induction 1; intros H'; cbn [app]; [exact H'| | |]; constructor; auto. Qed.

Lemma strung_notes {A} n x (val : A -> value) ms l as_ :
  notes n ms -> strung n x val l as_ -> strung n x val (noted_kids ms ++ l) as_.
Proof.
  intros [C N] H. destruct n; [|rewrite (N eq_refl); exact H]. clear N.
  induction C as [|k ms (c & w & X & _) C IH]; [exact H|]. cbn [noted_kids map app]. apply strung_note; [reflexivity|exact X|exact IH].
Qed.

Lemma strung_all {A} n x (val : A -> value) (g : kid -> option A) l as_ :
  (forall t a, root t = x -> g (t, val a) = Some a) -> sym_eqb T_COMMA x = false -> sym_eqb T_comment x = false ->
  strung n x val l as_ -> all g (filter (fun c => sym_eqb (root (fst c)) x) l) = Some as_.
Proof.
  intros G N N'. induction 1 as [|k l as_ H IH|k l as_ En X0 H IH|t a l as_ R H IH]; [reflexivity| | |]; cbn [filter fst].
  - cbn [leaf root]. rewrite N. exact IH.
  - unfold note at 1. cbn [root]. rewrite X0, N'. exact IH.
  - rewrite R. replace (sym_eqb x x) with true by (symmetry; apply sym_eqb_eq; reflexivity).
    cbn [all]. rewrite (G _ _ R), IH. reflexivity.
Qed.

Lemma strung_named {A} x (val : A -> value) l as_ :
  named x = true -> strung false x val l as_ ->
  filter (fun c => named (root (fst c))) l = filter (fun c => sym_eqb (root (fst c)) x) l.
Proof.
  intros N. induction 1 as [|k l as_ H IH|k l as_ En|t a l as_ R H IH]; [reflexivity| |discriminate|]; cbn [filter fst].
  - cbn [leaf root]. change (named T_COMMA) with false. destruct (sym_eqb T_COMMA x) eqn:E; [|exact IH].
    apply sym_eqb_eq in E. subst x. discriminate.
  - rewrite R, N. replace (sym_eqb x x) with true by (symmetry; apply sym_eqb_eq; reflexivity). rewrite IH. reflexivity.
Qed.

Lemma strung_keeps {A} x (val : A -> value) (g : kid -> option A) l as_ :
  (forall t a, root t = x -> g (t, val a) = Some a) -> named x = true -> sym_eqb T_comment x = false ->
  strung false x val l as_ -> all g (filter (fun c => named (root (fst c))) l) = Some as_.
Proof.
  intros G N N' H. rewrite (strung_named _ _ _ _ N H). apply (strung_all false x val); [exact G| |exact N'|exact H].
  destruct (sym_eqb T_COMMA x) eqn:E; [|reflexivity]. apply sym_eqb_eq in E. subst x. discriminate.
Qed.

(** What follows the first of them. *)
Definition tailed {A : Type} (n : bool) (c : cat) (x : sym) (val : A -> value) (as_ : list A) (ks : list tok) : Prop :=
  exists r cs kt ms, ks = kt ++ ms /\ notes n ms /\ In r (tails c) /\ matches_all r cs kt /\ strung n x val (kids (map kv cs)) as_.

(** Ways to be in a list. *)
Ltac here := solve [repeat first [left; reflexivity | right]].

Ltac tok := first [ eapply all_is; [eassumption|discriminate|] | eapply all_closing; [eassumption|] | eapply all_name; [eassumption|] ].

Lemma no_notes n : notes n [].
Proof. split; [constructor|reflexivity]. Qed.

Lemma tailed_none {A} n c x (val : A -> value) : tailed n c x val [] [].
Proof. exists [], [], [], []. split; [reflexivity|]. split; [apply no_notes|]. split; [here|]. split; [apply matches_nil|apply strung_nil]. Qed.

Lemma tailed_comma {A} n c x (val : A -> value) k ms : is T_COMMA k -> notes n ms -> tailed n c x val [] (k :: ms).
Proof.
  intros I N. exists [tk T_COMMA], [leaf T_COMMA k], [k], ms. split; [reflexivity|]. split; [exact N|].
  split; [here|]. split; [tok; apply matches_nil|]. apply (strung_comma n x val k [] []), strung_nil.
Qed.

Lemma tailed_more {A} n c x (val : A -> value) as_ ks t l :
  matches (Ct c) t ks -> visible (root t) = false -> value_at t = VHidden l -> strung n x val l as_ -> tailed n c x val as_ ks.
Proof.
  intros M H V S0. exists [Ct c], [t], ks, []. split; [symmetry; apply app_nil_r|]. split; [apply no_notes|].
  split; [here|]. split; [apply all_nil_r, M|].
  unfold kv, kids. cbn [map flat_map fst snd]. rewrite H, V, app_nil_r. exact S0.
Qed.

Lemma tailed_more_comma {A} n c x (val : A -> value) as_ ks t l k ms :
  matches (Ct c) t ks -> visible (root t) = false -> value_at t = VHidden l -> strung n x val l as_ -> is T_COMMA k -> notes n ms ->
  tailed n c x val as_ (ks ++ k :: ms).
Proof.
  intros M H V S0 I N. exists [Ct c; tk T_COMMA], [t; leaf T_COMMA k], (ks ++ [k]), ms.
  split; [rewrite <- app_assoc; reflexivity|]. split; [exact N|]. split; [here|].
  split; [apply matches_cons; [exact M|tok; apply matches_nil]|].
  unfold kv, kids. cbn [map flat_map fst snd]. rewrite H, V. cbn [leaf root visible value_at app].
  rewrite <- (app_nil_r as_). apply strung_app; [exact S0|]. apply (strung_comma n x val k [] []), strung_nil.
Qed.

(** ** Types, parameters, qualifiers and paths *)

Lemma in_cat c x l cs ks : l <> [] -> In (Nd x l) (shapes c) -> matches_all l cs ks ->
  matches (Ct c) (Node x (production x (map root_of l)) cs false) ks.
Proof. intros L I M. eapply matches_cat; [exact I|]. apply matches_node; assumption. Qed.

Lemma in_node x l cs ks : l <> [] -> matches_all l cs ks ->
  matches (Nd x l) (Node x (production x (map root_of l)) cs false) ks.
Proof. intros L M. apply matches_node; assumption. Qed.

Lemma type_read ks : type_is ks -> exists p cs, matches (Ct CType) (Node N_type p cs false) ks.
Proof.
  induction 1 as [x k N|x k I W|a b ks c A B T (p & cs & IH) C|a b ks c ks' d A B T (p & cs & IH) C T' (p' & cs' & IH') D].
  - eexists _, _. eapply in_cat; [| |apply all_nil_r, in_node; [|eapply all_nil_r, name_matches, N]]; [discriminate|here|discriminate].
  - assert (P : x <> T_POUND_POUND) by (intros ->; repeat (destruct I as [I|I]; [discriminate I|]); destruct I).
    repeat (destruct I as [<-|I];
      [eexists _, _; first
        [ eapply in_cat; [| |apply all_nil_r, in_node; [|apply all_nil_r, is_matches; [exact W|exact P]]]; [discriminate|here|discriminate]
        | eapply in_cat; [| |apply all_nil_r, in_node; [|apply all_nil_r, in_node; [|apply all_nil_r, in_node; [|apply all_nil_r, is_matches; [exact W|exact P]]]]];
          [discriminate|here|discriminate|discriminate|discriminate] ]|]).
    destruct I.
  - eexists _, _. eapply in_cat; [| |do 2 tok; apply matches_cons; [exact IH|tok; apply matches_nil]]; [discriminate|here].
  - eexists _, _. eapply in_cat; [| |do 2 tok; apply matches_cons; [exact IH|tok; apply matches_cons; [exact IH'|tok; apply matches_nil]]]; [discriminate|here].
Qed.

Lemma typed_read x ks : x <> T_POUND_POUND -> typed_is x ks ->
  ks = [] \/ exists k p cs, matches_all [tk x; Ct CType] [leaf x k; Node N_type p cs false] ks.
Proof.
  intros P [|c ks' C T]; [left; reflexivity|right]. destruct (type_read _ T) as (p & cs & M).
  exists c, p, cs. eapply all_is; [exact C|exact P|]. apply all_nil_r, M.
Qed.

Lemma param_read x ks : param_is x ks ->
  exists p cs, matches (Ct CParam) (Node N_param p cs false) ks /\ value_at (Node N_param p cs false) = VParam x.
Proof.
  intros [y k ks' N T]. pose proof N as (_ & W & _). destruct (typed_read T_COLON _ ltac:(discriminate) T) as [->|(c & p & cs & M)].
  - eexists _, _. split.
    + eapply in_cat; [| |tok; apply matches_nil]; [discriminate|here].
    + transitivity (VParam (source (id_tree k))); [reflexivity|]. unfold id_tree. rewrite source_node, W. reflexivity.
  - eexists _, _. split.
    + eapply in_cat; [| |tok; exact M]; [discriminate|here].
    + transitivity (VParam (source (id_tree k))); [reflexivity|]. unfold id_tree. rewrite source_node, W. reflexivity.
Qed.

(** One comma and one thing. *)
Lemma more_params_read xs ks : more_params xs ks ->
  exists p cs l, matches (Ct CParamsR) (Node N_param_list_repeat1 p cs false) ks /\
    value_at (Node N_param_list_repeat1 p cs false) = VHidden l /\ strung false N_param VParam l xs.
Proof.
  assert (One : forall c x ks, is T_COMMA c -> param_is x ks ->
    exists p cs l, matches (Ct CParam1) (Node N_param_list_repeat1 p cs false) (c :: ks) /\
      value_at (Node N_param_list_repeat1 p cs false) = VHidden l /\ strung false N_param VParam l [x]).
  { intros c x k C P. destruct (param_read _ _ P) as (p & cs & M & V). eexists _, _, _. split; [|split].
    - eapply in_cat; [| |tok; apply all_nil_r, M]; [discriminate|here].
    - rewrite value_node. cbn [map]. unfold kv. rewrite V. reflexivity.
    - apply (strung_comma false N_param VParam c). constructor; [reflexivity|apply strung_nil]. }
  induction 1 as [c x ks C P|xs ks c x ks' Ms (p & cs & l & M & V & St) C P].
  - destruct (One _ _ _ C P) as (p & cs & l & M & V & St). exists p, cs, l. split; [|auto].
    eapply matches_cat; [|exact M]. here.
  - destruct (One _ _ _ C P) as (p1 & cs1 & l1 & M1 & V1 & St1). eexists _, _, (l ++ l1). split; [|split].
    + eapply in_cat; [| |apply matches_cons; [exact M|apply all_nil_r, M1]]; [discriminate|here].
    + rewrite value_node. cbn [map]. unfold kv. rewrite V, V1. transitivity (VHidden (l ++ l1 ++ [])); [reflexivity|rewrite app_nil_r; reflexivity].
    + exact (strung_app _ _ _ _ _ _ _ St St1).
Qed.

Lemma params_read xs ks : params_is xs ks ->
  exists p cs, matches (Ct CParams) (Node N_param_list p cs false) ks /\ value_at (Node N_param_list p cs false) = VParams xs.
Proof.
  intros [x ks0 ys ks' P R]. destruct (param_read _ _ P) as (p & cs & M & V).
  assert (T : tailed false CParamsR N_param VParam ys ks').
  { destruct R as [|c C|l ks1 Mo|l ks1 c Mo C].
    - apply tailed_none.
    - exact (tailed_comma _ _ _ _ _ [] C (no_notes _)).
    - destruct (more_params_read _ _ Mo) as (p1 & cs1 & l1 & M1 & V1 & S1). exact (tailed_more _ _ _ _ _ _ _ _ M1 eq_refl V1 S1).
    - destruct (more_params_read _ _ Mo) as (p1 & cs1 & l1 & M1 & V1 & S1).
      exact (tailed_more_comma _ _ _ _ _ _ _ _ _ [] M1 eq_refl V1 S1 C (no_notes _)). }
  destruct T as (r & ds & kt & ns & -> & Nn & I & Md & Sd). destruct Nn as [_ Nn]. rewrite (Nn eq_refl), app_nil_r. eexists _, _. split.
  - eapply in_cat; [| |apply matches_cons; [exact M|exact Md]]; [discriminate|].
    apply (in_map (fun r => Nd N_param_list (Ct CParam :: r)) (tails CParamsR) r I).
  - rewrite value_node. cbn [map]. unfold kv at 1. rewrite V.
    change ((?a :: map kv ds)) with ([a] ++ map kv ds). unfold build, named_kids. rewrite kids_app. cbn [kids flat_map root fst snd visible app].
    erewrite (strung_keeps N_param VParam (fun c => match snd c with VParam y => Some y | _ => None end)); [|reflexivity|reflexivity|reflexivity|].
    2:{ apply (strung_item false N_param VParam _ x); [reflexivity|exact Sd]. }
    reflexivity.
Qed.

Lemma signature_read xs ks : signature_is xs ks ->
  (ks = [] /\ xs = []) \/
  (xs = [] /\ exists a b, matches_all [tk T_LPAREN; tk T_RPAREN] [leaf T_LPAREN a; leaf T_RPAREN b] ks) \/
  (exists a p cs b, matches_all [tk T_LPAREN; Ct CParams; tk T_RPAREN] [leaf T_LPAREN a; Node N_param_list p cs false; leaf T_RPAREN b] ks /\
     value_at (Node N_param_list p cs false) = VParams xs).
Proof.
  intros [|a b A B|a ys ks' b A P B]; [left; auto|right; left|right; right].
  - split; [reflexivity|]. exists a, b. do 2 tok. apply matches_nil.
  - destruct (params_read _ _ P) as (p & cs & M & V). exists a, p, cs, b. split; [|exact V].
    tok. apply matches_cons; [exact M|]. tok. apply matches_nil.
Qed.

(** A list of qualifiers. *)
Lemma more_qualifiers_read s ks : more_qualifiers s ks ->
  exists p cs l, matches (Ct CQuals) (Node N_qualifier_list_repeat1 p cs false) ks /\
    value_at (Node N_qualifier_list_repeat1 p cs false) = VHidden l /\ is_static l = s.
Proof.
  assert (One : forall x k, In x [T_static; T_pure] -> is x k ->
    exists p cs l, matches (Ct CQual) (Node N_qualifier_list_repeat1 p cs false) [k] /\
      value_at (Node N_qualifier_list_repeat1 p cs false) = VHidden l /\ is_static l = sym_eqb x T_static).
  { intros x k I K. pose proof K as (_ & W & _).
    destruct I as [<-|[<-|[]]]; injection W as W;
      (eexists _, _, [kv (Node N_qualifier _ [leaf _ k] false)]; split; [eapply in_cat; [| |apply all_nil_r, in_node; [|apply all_nil_r, is_matches; [exact K|]]];
        [discriminate|here|discriminate|discriminate]|split; [reflexivity|]]);
      unfold is_static, kv; cbn [existsb fst]; rewrite source_node, <- W; reflexivity. }
  induction 1 as [x k I K|s ks x k Ms (p & cs & l & M & V & St) I K].
  - destruct (One _ _ I K) as (p & cs & l & M & V & St). exists p, cs, l. split; [|auto].
    eapply matches_cat; [|exact M]. here.
  - destruct (One _ _ I K) as (p1 & cs1 & l1 & M1 & V1 & St1). eexists _, _, (l ++ l1). split; [|split].
    + eapply in_cat; [| |apply matches_cons; [exact M|apply all_nil_r, M1]]; [discriminate|here].
    + rewrite value_node. cbn [map]. unfold kv. rewrite V, V1. transitivity (VHidden (l ++ l1 ++ [])); [reflexivity|rewrite app_nil_r; reflexivity].
    + unfold is_static in *. rewrite existsb_app, St, St1. reflexivity.
Qed.

Definition quals : form := Nd N_qualifier_list [Ct CQuals].

Lemma qualifiers_read s ks : qualifiers_is s ks ->
  (ks = [] /\ s = false) \/
  (ks <> [] /\ exists p cs, matches quals (Node N_qualifier_list p cs false) ks /\ value_at (Node N_qualifier_list p cs false) = VStatic s).
Proof.
  intros [|q ks' Q]; [left; auto|right]. split; [destruct Q as [|? ks0]; [discriminate|destruct ks0; discriminate]|].
  destruct (more_qualifiers_read _ _ Q) as (p & cs & l & M & V & St).
  eexists _, _. split; [apply in_node; [discriminate|apply all_nil_r, M]|].
  rewrite value_node. cbn [map]. unfold kv. rewrite V. rewrite <- St. cbn [build kids flat_map root fst snd visible].
  change (visible N_qualifier_list_repeat1) with false. cbv iota. rewrite app_nil_r. reflexivity.
Qed.

Lemma path_read xs ks : path_is xs ks ->
  exists p cs, matches (Ct CPath) (Node N_import_path p cs false) ks /\ value_at (Node N_import_path p cs false) = VPath xs.
Proof.
  induction 1 as [x k N|x k d xs ks N D P (p & cs & M & V)]; pose proof N as (_ & W & _).
  - eexists _, _. split; [eapply in_cat; [| |tok; apply matches_nil]; [discriminate|here]|].
    transitivity (VPath [source (id_tree k)]); [reflexivity|]. unfold id_tree. rewrite source_node, W. reflexivity.
  - eexists _, _. split; [eapply in_cat; [| |do 2 tok; apply all_nil_r, M]; [discriminate|here]|].
    rewrite value_node. cbn [map]. unfold kv. rewrite V.
    transitivity (VPath (source (id_tree k) :: xs)); [reflexivity|]. unfold id_tree. rewrite source_node, W. reflexivity.
Qed.

(** ** Expressions *)

Definition at_level (o : bool) (m : nat) : cat := if o then CO (Nat.min m 7) else CE (Nat.min m 7).

Lemma up_ce m : m < 7 -> In (Ct (CE (S m))) (shapes (CE m)).
Proof. intros L. do 7 (destruct m as [|m]; [left; reflexivity|]). lia. Qed.

Lemma up_co m : m < 7 -> In (Ct (CO (S m))) (shapes (CO m)).
Proof. intros L. do 7 (destruct m as [|m]; [right; left; reflexivity|]). lia. Qed.

Lemma up_open m : In (Ct (CE m)) (shapes (CO m)).
Proof. do 8 (destruct m as [|m]; [left; reflexivity|]). left. reflexivity. Qed.

Lemma lower_ce t ks d : forall m, m + d <= 7 -> matches (Ct (CE (m + d))) t ks -> matches (Ct (CE m)) t ks.
Proof.
  induction d as [|d IH]; intros m L M; [rewrite Nat.add_0_r in M; exact M|].
  eapply matches_cat; [apply up_ce; lia|]. apply IH; [lia|]. replace (S m + d) with (m + S d) by lia. exact M.
Qed.

Lemma lower_co t ks d : forall m, m + d <= 7 -> matches (Ct (CO (m + d))) t ks -> matches (Ct (CO m)) t ks.
Proof.
  induction d as [|d IH]; intros m L M; [rewrite Nat.add_0_r in M; exact M|].
  eapply matches_cat; [apply up_co; lia|]. apply IH; [lia|]. replace (S m + d) with (m + S d) by lia. exact M.
Qed.

Lemma lower t ks o n m : m <= n -> matches (Ct (at_level o n)) t ks -> matches (Ct (at_level o m)) t ks.
Proof.
  intros L M. assert (E : Nat.min n 7 = Nat.min m 7 + (Nat.min n 7 - Nat.min m 7)) by lia.
  unfold at_level in *. destruct o; rewrite E in M; [apply lower_co in M|apply lower_ce in M]; try assumption; lia.
Qed.

Lemma widen t ks n o : matches (Ct (CE (Nat.min n 7))) t ks -> matches (Ct (at_level o n)) t ks.
Proof. intros M. destruct o; [|exact M]. eapply matches_cat; [apply up_open|]. exact M. Qed.

Lemma atom_level t ks o m : matches (Ct (CE 7)) t ks -> matches (Ct (at_level o m)) t ks.
Proof.
  intros M. apply widen. apply (lower_ce t ks (7 - Nat.min m 7)); [lia|].
  replace (Nat.min m 7 + (7 - Nat.min m 7)) with 7 by lia. exact M.
Qed.

Lemma open_level t ks m : matches (Ct (CO 7)) t ks -> matches (Ct (at_level true m)) t ks.
Proof.
  intros M. unfold at_level. apply (lower_co t ks (7 - Nat.min m 7)); [lia|].
  replace (Nat.min m 7 + (7 - Nat.min m 7)) with 7 by lia. exact M.
Qed.

Definition exp_ok (o : bool) (m : nat) (e : expr) (ks : list tok) : Prop :=
  exists p cs, matches (Ct (at_level o m)) (Node N_expression p cs false) ks /\
               value_at (Node N_expression p cs false) = VExpr e.

Definition inner : list sym :=
  [N_literal; N_parenthesized_expression; N_lambda; N_vec; N_map; N_call; N_unary_expression; N_binary_expression;
   N_access; N_index].

Lemma ex_value x p cs q e :
  In x inner -> expr_of (build x p (map kv cs)) = Some e -> value_at (Node N_expression q [Node x p cs false] false) = VExpr e.
Proof.
  intros I V. rewrite value_node. cbn [map]. unfold kv at 1. rewrite value_node.
  set (v := build x p (map kv cs)) in *. clearbody v.
  repeat (destruct I as [<-|I]; [cbn; rewrite V; reflexivity|]). destruct I.
Qed.

Lemma ex_in c x l cs ks : In (ex (Nd x l)) (shapes c) -> l <> [] -> matches_all l cs ks ->
  matches (Ct c) (Node N_expression (production N_expression [x]) [Node x (production x (map root_of l)) cs false] false) ks.
Proof.
  intros I L M. eapply matches_cat; [exact I|]. apply (in_node N_expression [Nd x l]); [discriminate|].
  apply all_nil_r, in_node; assumption.
Qed.

Lemma atom_in x l cs ks e o m :
  In (ex (Nd x l)) atoms -> l <> [] -> In x inner -> matches_all l cs ks ->
  expr_of (build x (production x (map root_of l)) (map kv cs)) = Some e -> exp_ok o m e ks.
Proof.
  intros I L J M V. eexists _, _. split; [apply atom_level, ex_in; [exact I|exact L|exact M]|]. apply ex_value; assumption.
Qed.

Lemma open_in x l cs ks e m :
  In (ex (Nd x l)) opens -> l <> [] -> In x inner -> matches_all l cs ks ->
  expr_of (build x (production x (map root_of l)) (map kv cs)) = Some e -> exp_ok true m e ks.
Proof.
  intros I L J M V. eexists _, _. split; [apply open_level, ex_in; [right; exact I|exact L|exact M]|]. apply ex_value; assumption.
Qed.

Ltac atom M := eapply atom_in; [ | |  |M| ]; [here|discriminate|here|].

Lemma none_ok o m k : is T_none k -> exp_ok o m ENone [k].
Proof. intros I. atom ltac:(tok; apply matches_nil). reflexivity. Qed.

Lemma bool_ok o m (b : bool) k : is (if b then T_true else T_false) k -> exp_ok o m (EBool b) [k].
Proof.
  intros I. pose proof I as (_ & W & _). destruct b; injection W as W.
  - eapply atom_in; [| | |apply all_nil_r, in_node; [|tok; apply matches_nil]|]; [here|discriminate|here|discriminate|].
    cbn [map]. unfold kv. transitivity (literal_of (Node N_bool (production N_bool (map root_of [tk T_true])) [leaf T_true k] false)); [reflexivity|].
    unfold literal_of. cbn [root]. rewrite source_node, <- W. reflexivity.
  - eapply atom_in; [| | |apply all_nil_r, in_node; [|tok; apply matches_nil]|]; [here|discriminate|here|discriminate|].
    cbn [map]. unfold kv. transitivity (literal_of (Node N_bool (production N_bool (map root_of [tk T_false])) [leaf T_false k] false)); [reflexivity|].
    unfold literal_of. cbn [root]. rewrite source_node, <- W. reflexivity.
Qed.

Lemma number_ok o m d k : number_is d k -> exp_ok o m (ENum d) [k].
Proof.
  intros (E & W & B & N & D). subst d. eapply atom_in; [| | |apply all_nil_r, matches_tok; [exact E|exact B|apply told_number; assumption]|]; [here|discriminate|here|].
  transitivity (literal_of (leaf T_number k)); [reflexivity|]. unfold literal_of. cbn [root leaf]. fold (leaf T_number k).
  rewrite source_leaf. reflexivity.
Qed.

Lemma string_ok o m s k : string_is s k -> exp_ok o m (EStr s) [k].
Proof.
  intros (E & W & B & Q). eapply atom_in; [| | |apply all_nil_r, matches_tok; [exact E|exact B|eapply told_string; eassumption]|]; [here|discriminate|here|].
  transitivity (literal_of (leaf T_string k)); [reflexivity|]. unfold literal_of. cbn [root leaf]. fold (leaf T_string k).
  rewrite source_leaf, W. cbn [app tl]. rewrite removelast_last. reflexivity.
Qed.

Lemma id_ok o m x k : name_is x k -> exp_ok o m (EId x) [k].
Proof.
  intros N. pose proof N as (_ & W & _). eexists _, _. split.
  - apply atom_level. eapply matches_cat; [|apply in_node; [|apply all_nil_r, (name_matches _ _ N)]]; [here|discriminate].
  - rewrite value_node. cbn [map]. transitivity (VExpr (EId (source (id_tree k)))); [reflexivity|].
    unfold id_tree. rewrite source_node, W. reflexivity.
Qed.

Lemma paren_ok o m a ms e ks b : is T_LPAREN a -> comments ms -> exp_ok true 1 e ks -> is T_RPAREN b -> exp_ok o m (EParen e) (a :: ms ++ ks ++ [b]).
Proof.
  intros A C (p & cs & M & V) B.
  atom ltac:(eapply noted_on; [exact A|discriminate|exact C|apply matches_cons; [exact M|tok; apply matches_nil]]).
  cbn [map]. rewrite (map_app kv). match goal with |- context [build _ _ (?a :: ?r)] => change (a :: r) with ([a] ++ r) end.
  rewrite build_noted by here. unfold kv. cbn [map app]. rewrite V. reflexivity.
Qed.

(** ** Lists of expressions and pairs *)

Definition list_ok (n : bool) (es : list expr) (ks : list tok) : Prop :=
  exists e es' p cs ke kt,
    es = e :: es' /\ ks = ke ++ kt /\ matches X (Node N_expression p cs false) ke /\
    value_at (Node N_expression p cs false) = VExpr e /\ tailed n CArgs N_expression VExpr es' kt.

Definition more_ok (n : bool) (es : list expr) (ks : list tok) : Prop :=
  exists p cs l, matches (Ct CArgs) (Node N_arg_list_repeat1 p cs false) ks /\
    value_at (Node N_arg_list_repeat1 p cs false) = VHidden l /\ strung n N_expression VExpr l es.

Definition pair_value (i : expr * expr) : value := VItem (fst i) (snd i).

Definition item_ok (i : expr * expr) (ks : list tok) : Prop :=
  exists p cs, matches (Ct CItem) (Node N_map_item p cs false) ks /\ value_at (Node N_map_item p cs false) = pair_value i.

Definition items_ok (es : list (expr * expr)) (ks : list tok) : Prop :=
  exists e es' p cs ke kt,
    es = e :: es' /\ ks = ke ++ kt /\ matches (Ct CItem) (Node N_map_item p cs false) ke /\
    value_at (Node N_map_item p cs false) = pair_value e /\ tailed true CItems N_map_item pair_value es' kt.

Definition more_items_ok (es : list (expr * expr)) (ks : list tok) : Prop :=
  exists p cs l, matches (Ct CItems) (Node N_map_repeat1 p cs false) ks /\
    value_at (Node N_map_repeat1 p cs false) = VHidden l /\ strung true N_map_item pair_value l es.

(** One comma, comments and one thing. *)
Lemma one_value y p c ms t v : visible y = false -> (forall cs, build y p cs = VHidden (kids cs)) -> comments ms ->
  visible (root t) = true -> value_at t = v ->
  value_at (Node y p (leaf T_COMMA c :: map note ms ++ [t]) false) = VHidden ((leaf T_COMMA c, VNothing) :: noted_kids ms ++ [(t, v)]).
Proof.
  intros Y B C Vi V. rewrite value_node, B. cbn [map]. rewrite (map_app kv).
  change (kv (leaf T_COMMA c) :: map kv (map note ms) ++ map kv [t]) with ([kv (leaf T_COMMA c)] ++ map kv (map note ms) ++ map kv [t]).
  rewrite !kids_app, (notes_kids _ C). unfold kids, kv. cbn [flat_map map fst snd]. rewrite Vi, V. reflexivity.
Qed.

Lemma arg1 n c ms e ks : is T_COMMA c -> notes n ms -> exp_ok true 1 e ks ->
  exists p cs l, matches (Ct CArg1) (Node N_arg_list_repeat1 p cs false) (c :: ms ++ ks) /\
    value_at (Node N_arg_list_repeat1 p cs false) = VHidden l /\ strung n N_expression VExpr l [e].
Proof.
  intros C N (p & cs & M & V). eexists _, _, _. split; [|split].
  - eapply in_cat; [| |apply all_noted; [exact C|discriminate|exact (proj1 N)| |apply all_nil_r, M]]; [discriminate|here|discriminate].
  - apply one_value; [reflexivity|reflexivity|exact (proj1 N)|reflexivity|exact V].
  - apply (strung_comma n N_expression VExpr c). apply strung_notes; [exact N|]. constructor; [reflexivity|apply strung_nil].
Qed.

Lemma more_ok_one n c ms e ks : is T_COMMA c -> notes n ms -> exp_ok true 1 e ks -> more_ok n [e] (c :: ms ++ ks).
Proof.
  intros C N E. destruct (arg1 _ _ _ _ _ C N E) as (p & cs & l & M & V & St). exists p, cs, l. split; [|auto].
  eapply matches_cat; [|exact M]. here.
Qed.

Lemma more_ok_next n es ks c ms e ks' :
  more_ok n es ks -> is T_COMMA c -> notes n ms -> exp_ok true 1 e ks' -> more_ok n (es ++ [e]) (ks ++ c :: ms ++ ks').
Proof.
  intros (p & cs & l & M & V & St) C N E. destruct (arg1 _ _ _ _ _ C N E) as (p1 & cs1 & l1 & M1 & V1 & St1).
  eexists _, _, (l ++ l1). split; [|split].
  - eapply in_cat; [| |apply matches_cons; [exact M|apply all_nil_r, M1]]; [discriminate|here].
  - rewrite value_node. cbn [map]. unfold kv. rewrite V, V1. transitivity (VHidden (l ++ l1 ++ [])); [reflexivity|rewrite app_nil_r; reflexivity].
  - exact (strung_app _ _ _ _ _ _ _ St St1).
Qed.

Lemma item1 c ms e ks : is T_COMMA c -> comments ms -> item_ok e ks ->
  exists p cs l, matches (Ct CItem1) (Node N_map_repeat1 p cs false) (c :: ms ++ ks) /\
    value_at (Node N_map_repeat1 p cs false) = VHidden l /\ strung true N_map_item pair_value l [e].
Proof.
  intros C N (p & cs & M & V). eexists _, _, _. split; [|split].
  - eapply in_cat; [| |apply all_noted; [exact C|discriminate|exact N| |apply all_nil_r, M]]; [discriminate|here|discriminate].
  - apply one_value; [reflexivity|reflexivity|exact N|reflexivity|exact V].
  - apply (strung_comma true N_map_item pair_value c). apply strung_notes; [split; [exact N|discriminate]|].
    constructor; [reflexivity|apply strung_nil].
Qed.

Lemma more_items_ok_one c ms e ks : is T_COMMA c -> comments ms -> item_ok e ks -> more_items_ok [e] (c :: ms ++ ks).
Proof.
  intros C N E. destruct (item1 _ _ _ _ C N E) as (p & cs & l & M & V & St). exists p, cs, l. split; [|auto].
  eapply matches_cat; [|exact M]. here.
Qed.

Lemma more_items_ok_next es ks c ms e ks' :
  more_items_ok es ks -> is T_COMMA c -> comments ms -> item_ok e ks' -> more_items_ok (es ++ [e]) (ks ++ c :: ms ++ ks').
Proof.
  intros (p & cs & l & M & V & St) C N E. destruct (item1 _ _ _ _ C N E) as (p1 & cs1 & l1 & M1 & V1 & St1).
  eexists _, _, (l ++ l1). split; [|split].
  - eapply in_cat; [| |apply matches_cons; [exact M|apply all_nil_r, M1]]; [discriminate|here].
  - rewrite value_node. cbn [map]. unfold kv. rewrite V, V1. transitivity (VHidden (l ++ l1 ++ [])); [reflexivity|rewrite app_nil_r; reflexivity].
  - exact (strung_app _ _ _ _ _ _ _ St St1).
Qed.

Lemma more_tailed n es ks : more_ok n es ks -> tailed n CArgs N_expression VExpr es ks.
Proof. intros (p & cs & l & M & V & St). exact (tailed_more _ _ _ _ _ _ _ _ M eq_refl V St). Qed.

Lemma more_comma_tailed n es ks c ms : more_ok n es ks -> is T_COMMA c -> notes n ms -> tailed n CArgs N_expression VExpr es (ks ++ c :: ms).
Proof. intros (p & cs & l & M & V & St) C N. exact (tailed_more_comma _ _ _ _ _ _ _ _ _ _ M eq_refl V St C N). Qed.

Lemma more_items_tailed es ks : more_items_ok es ks -> tailed true CItems N_map_item pair_value es ks.
Proof. intros (p & cs & l & M & V & St). exact (tailed_more _ _ _ _ _ _ _ _ M eq_refl V St). Qed.

Lemma some_notes ms : comments ms -> notes true ms.
Proof. intros C. split; [exact C|discriminate]. Qed.

Lemma more_items_comma_tailed es ks c ms :
  more_items_ok es ks -> is T_COMMA c -> comments ms -> tailed true CItems N_map_item pair_value es (ks ++ c :: ms).
Proof. intros (p & cs & l & M & V & St) C N. exact (tailed_more_comma _ _ _ _ _ _ _ _ _ _ M eq_refl V St C (some_notes _ N)). Qed.

Lemma list_of n e ks es kt : exp_ok true 1 e ks -> tailed n CArgs N_expression VExpr es kt -> list_ok n (e :: es) (ks ++ kt).
Proof. intros (p & cs & M & V) T. exists e, es, p, cs, ks, kt. auto. Qed.

Lemma items_of e ks es kt : item_ok e ks -> tailed true CItems N_map_item pair_value es kt -> items_ok (e :: es) (ks ++ kt).
Proof. intros (p & cs & M & V) T. exists e, es, p, cs, ks, kt. auto. Qed.

Lemma item_of k kk c ms v kv_ : exp_ok true 1 k kk -> is T_COLON c -> comments ms -> exp_ok true 1 v kv_ -> item_ok (k, v) (kk ++ c :: ms ++ kv_).
Proof.
  intros (p & cs & M & V) C N (p' & cs' & M' & V'). eexists _, _. split.
  - eapply in_cat; [| |apply matches_cons; [exact M|apply all_noted; [exact C|discriminate|exact N| |apply all_nil_r, M']]]; [discriminate|here|discriminate].
  - rewrite value_node. cbn [map]. rewrite (map_app kv).
    match goal with |- build _ _ (?a :: ?b :: ?r) = _ => change (a :: b :: r) with ([a; b] ++ r) end.
    rewrite build_noted by here. unfold kv. cbn [map app]. rewrite V, V'. reflexivity.
Qed.

Lemma tails_nil c r : In r (tails c) -> r = [] \/ r = [tk T_COMMA] \/ r = [Ct c] \/ r = [Ct c; tk T_COMMA].
Proof. cbn. intros H. intuition. Qed.

(** What is in brackets. *)
Lemma in_brackets x y a ms t v ds ns b : sym_eqb T_comment y = false -> sym_eqb T_LBRACK y = false -> sym_eqb T_RBRACK y = false ->
  sym_eqb T_LBRACE y = false -> sym_eqb T_RBRACE y = false -> In x [T_LBRACK; T_LBRACE] -> comments ms -> comments ns -> root t = y ->
  visible y = true -> value_at t = v ->
  forall x', In x' [T_RBRACK; T_RBRACE] ->
  @filter kid (fun c : kid => sym_eqb (root (fst c)) y) (kids (map kv (leaf x a :: map note ms ++ (t :: ds) ++ map note ns ++ [leaf x' b]))) =
  (t, v) :: @filter kid (fun c : kid => sym_eqb (root (fst c)) y) (kids (map kv ds)).
Proof.
  intros Y Y1 Y2 Y3 Y4 I Cm Cn R Vi V x' I'. subst y.
  change (leaf x a :: map note ms ++ (t :: ds) ++ map note ns ++ [leaf x' b])
    with ([leaf x a] ++ map note ms ++ ([t] ++ ds) ++ map note ns ++ [leaf x' b]).
  rewrite !(map_app kv), !kids_app, !filter_app, (notes_kids _ Cm), (notes_kids _ Cn).
  rewrite (notes_other _ ms Y Cm), (notes_other _ ns Y Cn).
  assert (L : filter (fun c : kid => sym_eqb (root (fst c)) (root t)) (kids (map kv [leaf x a])) = []).
  { destruct I as [<-|[<-|[]]]; unfold kids, kv; cbn [map flat_map fst root leaf visible app filter]; [rewrite Y1|rewrite Y3]; reflexivity. }
  assert (L' : filter (fun c : kid => sym_eqb (root (fst c)) (root t)) (kids (map kv [leaf x' b])) = []).
  { destruct I' as [<-|[<-|[]]]; unfold kids, kv; cbn [map flat_map fst root leaf visible app filter]; [rewrite Y2|rewrite Y4]; reflexivity. }
  rewrite L, L'. cbn [app]. rewrite app_nil_r. unfold kids at 1, kv at 1. cbn [map flat_map fst snd]. rewrite Vi, V. cbn [app filter fst].
  replace (sym_eqb (root t) (root t)) with true by (symmetry; apply sym_eqb_eq; reflexivity). reflexivity.
Qed.

Lemma vec_ok o m a ms es ks b : is T_LBRACK a -> comments ms -> list_ok true es ks -> is T_RBRACK b -> exp_ok o m (EVec es) (a :: ms ++ ks ++ [b]).
Proof.
  intros A Cm (e & es' & p & cs & ke & kt & -> & -> & M & V & (r & ds & kr & ns & -> & [Cn _] & I & Md & Sd)) B.
  eapply (atom_in N_vec (tk T_LBRACK :: (X :: r) ++ [tk T_RBRACK])
    (leaf T_LBRACK a :: map note ms ++ (Node N_expression p cs false :: ds) ++ map note ns ++ [leaf T_RBRACK b])); [| discriminate|here| |].
  - apply in_or_app. right. apply in_or_app. left. apply (in_map (fun r => ex (Nd N_vec (tk T_LBRACK :: X :: r ++ [tk T_RBRACK]))) _ _ I).
  - eapply noted_on; [exact A|discriminate|exact Cm|]. rewrite (app_assoc ke kr ns), <- (app_assoc (ke ++ kr) ns [b]).
    refine (all_app_notes (X :: r) (Node N_expression p cs false :: ds) (ke ++ kr) ns [tk T_RBRACK] [leaf T_RBRACK b] [b] _ _ Cn _ _);
      [apply matches_cons; [exact M|exact Md]|discriminate|discriminate|]. tok. apply matches_nil.
  - unfold build. rewrite (in_brackets T_LBRACK N_expression a ms _ (VExpr e) ds ns b) by (first [reflexivity|assumption|here]).
    cbn [all snd expr_of].
    rewrite (strung_all true N_expression VExpr (fun c => expr_of (snd c)) _ es'); [reflexivity|reflexivity|reflexivity|reflexivity|exact Sd].
Qed.

Lemma map_ok o m a ms es ks b : is T_LBRACE a -> comments ms -> items_ok es ks -> is T_RBRACE b -> exp_ok o m (EMap es) (a :: ms ++ ks ++ [b]).
Proof.
  intros A Cm (e & es' & p & cs & ke & kt & -> & -> & M & V & (r & ds & kr & ns & -> & [Cn _] & I & Md & Sd)) B.
  eapply (atom_in N_map (tk T_LBRACE :: (Ct CItem :: r) ++ [tk T_RBRACE])
    (leaf T_LBRACE a :: map note ms ++ (Node N_map_item p cs false :: ds) ++ map note ns ++ [leaf T_RBRACE b])); [| discriminate|here| |].
  - apply in_or_app. right. apply in_or_app. right. apply (in_map (fun r => ex (Nd N_map (tk T_LBRACE :: Ct CItem :: r ++ [tk T_RBRACE]))) _ _ I).
  - eapply noted_on; [exact A|discriminate|exact Cm|]. rewrite (app_assoc ke kr ns), <- (app_assoc (ke ++ kr) ns [b]).
    refine (all_app_notes (Ct CItem :: r) (Node N_map_item p cs false :: ds) (ke ++ kr) ns [tk T_RBRACE] [leaf T_RBRACE b] [b] _ _ Cn _ _);
      [apply matches_cons; [exact M|exact Md]|discriminate|discriminate|]. tok. apply matches_nil.
  - unfold build. rewrite (in_brackets T_LBRACE N_map_item a ms _ (pair_value e) ds ns b) by (first [reflexivity|assumption|here]).
    cbn [all snd pair_value].
    rewrite (strung_all true N_map_item pair_value (fun c => match snd c with VItem k v => Some (k, v) | _ => None end) _ es');
      [destruct e; reflexivity| intros t [? ?] _; reflexivity|reflexivity|reflexivity|exact Sd].
Qed.

Lemma arg_list_ok es ks : list_ok false es ks ->
  exists p cs, matches (Ct CArgList) (Node N_arg_list p cs false) ks /\ value_at (Node N_arg_list p cs false) = VArgs es.
Proof.
  intros (e & es' & p & cs & ke & kt & -> & -> & M & V & (r & ds & kr & ns & -> & [_ Nn] & I & Md & Sd)).
  rewrite (Nn eq_refl), app_nil_r. eexists _, _. split.
  - eapply in_cat; [| |apply matches_cons; [exact M|exact Md]]; [discriminate|].
    apply (in_map (fun r => Nd N_arg_list (X :: r)) _ _ I).
  - rewrite value_node. cbn [map]. unfold kv at 1. rewrite V. unfold build, named_kids.
    match goal with |- context [kids (?a :: map kv ds)] => change (a :: map kv ds) with ([a] ++ map kv ds) end.
    rewrite kids_app. cbn [kids flat_map root fst snd visible app].
    erewrite (strung_keeps N_expression VExpr (fun c => if sym_eqb (root (fst c)) N_expression then expr_of (snd c) else None)); [| |reflexivity|reflexivity|].
    3:{ apply (strung_item false N_expression VExpr _ e); [reflexivity|exact Sd]. }
    2:{ intros t a E. cbn [fst snd]. rewrite E. reflexivity. }
    reflexivity.
Qed.

Lemma call_empty_ok o m f kf a b : exp_ok false 7 f kf -> is T_LPAREN a -> is T_RPAREN b -> exp_ok o m (ECall f []) (kf ++ [a; b]).
Proof.
  intros (p & cs & M & V) A B. atom ltac:(apply matches_cons; [exact M|do 2 tok; apply matches_nil]).
  cbn [map]. unfold kv. rewrite V. reflexivity.
Qed.

Lemma call_ok o m f kf a es ks b :
  exp_ok false 7 f kf -> is T_LPAREN a -> list_ok false es ks -> is T_RPAREN b -> exp_ok o m (ECall f es) (kf ++ a :: ks ++ [b]).
Proof.
  intros (p & cs & M & V) A L B. destruct (arg_list_ok _ _ L) as (p' & cs' & M' & V').
  atom ltac:(apply matches_cons; [exact M|tok; apply matches_cons; [exact M'|tok; apply matches_nil]]).
  cbn [map]. unfold kv. rewrite V, V'. reflexivity.
Qed.

Lemma access_read e ke d x k : exp_ok false 7 e ke -> is T_DOT d -> name_is x k ->
  exists p cs, matches access (Node N_access p cs false) (ke ++ [d; k]) /\
    value_at (Node N_access p cs false) = VBoth (EAccess e x) (LAccess e x).
Proof.
  intros (p & cs & M & V) D N. pose proof N as (_ & W & _). eexists _, _. split.
  - apply in_node; [discriminate|]. apply matches_cons; [exact M|do 2 tok; apply matches_nil].
  - rewrite value_node. cbn [map]. unfold kv. rewrite V.
    transitivity (VBoth (EAccess e (source (id_tree k))) (LAccess e (source (id_tree k)))); [reflexivity|].
    unfold id_tree. rewrite source_node, W. reflexivity.
Qed.

Lemma index_read e ke a ms i ks b : exp_ok false 7 e ke -> is T_LBRACK a -> comments ms -> exp_ok true 1 i ks -> is T_RBRACK b ->
  exists p cs, matches index (Node N_index p cs false) (ke ++ a :: ms ++ ks ++ [b]) /\
    value_at (Node N_index p cs false) = VBoth (EIndex e i) (LIndex e i).
Proof.
  intros (p & cs & M & V) A C (p' & cs' & M' & V') B. eexists _, _. split.
  - apply in_node; [discriminate|]. apply matches_cons; [exact M|].
    eapply noted_on; [exact A|discriminate|exact C|]. apply matches_cons; [exact M'|tok; apply matches_nil].
  - rewrite value_node. cbn [map]. rewrite (map_app kv).
    match goal with |- build _ _ (?a :: ?b :: ?r) = _ => change (a :: b :: r) with ([a; b] ++ r) end.
    rewrite build_noted by here. unfold kv. cbn [map app]. rewrite V, V'. reflexivity.
Qed.

Lemma wrapped f x p cs ks e v o m :
  In (ex f) atoms -> In x inner -> matches f (Node x p cs false) ks -> value_at (Node x p cs false) = v -> expr_of v = Some e ->
  exp_ok o m e ks.
Proof.
  intros I J M V E. eexists _, _. split.
  - apply atom_level. eapply matches_cat; [exact I|]. apply in_node; [discriminate|]. apply all_nil_r, M.
  - apply ex_value; [exact J|]. rewrite value_node in V. rewrite V. exact E.
Qed.

Lemma access_ok o m e ke d x k : exp_ok false 7 e ke -> is T_DOT d -> name_is x k -> exp_ok o m (EAccess e x) (ke ++ [d; k]).
Proof.
  intros E D N. destruct (access_read _ _ _ _ _ E D N) as (p & cs & M & V).
  eapply wrapped; [| |exact M|exact V|reflexivity]; here.
Qed.

Lemma index_ok o m e ke a ms i ks b :
  exp_ok false 7 e ke -> is T_LBRACK a -> comments ms -> exp_ok true 1 i ks -> is T_RBRACK b ->
  exp_ok o m (EIndex e i) (ke ++ a :: ms ++ ks ++ [b]).
Proof.
  intros E A C I B. destruct (index_read _ _ _ _ _ _ _ E A C I B) as (p & cs & M & V).
  eapply wrapped; [| |exact M|exact V|reflexivity]; here.
Qed.

Lemma nothing_in x y a ms x' b : sym_eqb T_comment y = false -> In x [T_LBRACK; T_LBRACE] -> comments ms -> In x' [T_RBRACK; T_RBRACE] ->
  In y [N_expression; N_map_item] ->
  @filter kid (fun c : kid => sym_eqb (root (fst c)) y) (kids (map kv (leaf x a :: map note ms ++ [leaf x' b]))) = [].
Proof.
  intros Y I C I' Iy. change (leaf x a :: map note ms ++ [leaf x' b]) with ([leaf x a] ++ map note ms ++ [leaf x' b]).
  rewrite !(map_app kv), !kids_app, !filter_app, (notes_kids _ C), (notes_other _ ms Y C).
  destruct I as [<-|[<-|[]]]; destruct I' as [<-|[<-|[]]]; destruct Iy as [<-|[<-|[]]]; reflexivity.
Qed.

Lemma vec_empty_ok o m a ms b : is T_LBRACK a -> comments ms -> is T_RBRACK b -> exp_ok o m (EVec []) (a :: ms ++ [b]).
Proof.
  intros A C B. atom ltac:(eapply noted_on; [exact A|discriminate|exact C|tok; apply matches_nil]).
  unfold build. 
  match goal with |- context [@filter ?A ?f ?l] =>
    replace (@filter A f l) with (@nil A) by (symmetry; exact (nothing_in T_LBRACK N_expression a ms T_RBRACK b eq_refl ltac:(here) C ltac:(here) ltac:(here))) end. reflexivity.
Qed.

Lemma map_empty_ok o m a ms b : is T_LBRACE a -> comments ms -> is T_RBRACE b -> exp_ok o m (EMap []) (a :: ms ++ [b]).
Proof.
  intros A C B. atom ltac:(eapply noted_on; [exact A|discriminate|exact C|tok; apply matches_nil]).
  unfold build. 
  match goal with |- context [@filter ?A ?f ?l] =>
    replace (@filter A f l) with (@nil A) by (symmetry; exact (nothing_in T_LBRACE N_map_item a ms T_RBRACE b eq_refl ltac:(here) C ltac:(here) ltac:(here))) end. reflexivity.
Qed.

(** ** Operators *)

Lemma operator_read n x k : In x (operators n) -> is x k ->
  exists t, matches (operator n x) t [k] /\ source t = k_text k /\ root t = root_of (operator n x) /\
            visible (root t) = true /\ named (root t) = true /\ extra t = false /\
            production N_binary_expression [N_expression; root t; N_expression] = 17%N.
Proof.
  intros I K. assert (P : x <> T_POUND_POUND).
  { intros ->. do 7 (destruct n as [|n]; [cbn in I; intuition discriminate|]). exact I. }
  do 7 (destruct n as [|n]; [cbn [operators] in I;
    repeat (destruct I as [<-|I];
      [eexists; split; [first [apply in_node; [discriminate|apply all_nil_r, is_matches; [exact K|exact P]]|apply is_matches; [exact K|exact P]]
        |split; [first [apply source_node|apply source_leaf]|repeat split]]|]);
    destruct I|]).
  destruct I.
Qed.

Lemma binary_ok o m n l kl x k r kr :
  m <= n -> In x (operators n) -> exp_ok false n l kl -> is x k -> exp_ok o (S n) r kr ->
  exp_ok o m (EBin l (k_text k) r) (kl ++ k :: kr).
Proof.
  intros L I (p & cs & M & V) K (p' & cs' & M' & V').
  destruct (operator_read n x k I K) as (t & Mt & St & Rt & Vi & Na & Ex & Pr).
  assert (Hn : Nat.min n 7 = n /\ Nat.min (S n) 7 = S n).
  { do 7 (destruct n as [|n]; [split; reflexivity|]). destruct I. }
  destruct Hn as [Hn Hs]. unfold at_level in M, M'. rewrite Hn in M. rewrite Hs in M'.
  set (right := fun n => if o then CO n else CE n).
  assert (M2 : matches (Ct (right (S n))) (Node N_expression p' cs' false) kr) by (unfold right; destruct o; exact M').
  set (f := Nd N_binary_expression [Ct (CE n); operator n x; Ct (right (S n))]).
  assert (If : In (ex f) (shapes (at_level o n))).
  { assert (B : In (ex f) (binary n right)) by exact (in_map (fun x => ex (Nd N_binary_expression [Ct (CE n); operator n x; Ct (right (S n))])) _ _ I).
    unfold at_level. rewrite Hn. clear - B I.
    do 7 (destruct n as [|n]; [destruct o; [right; right; exact B|right; exact B]|]). destruct I. }
  eexists _, _. split.
  - apply (lower _ _ o n m L). eapply matches_cat; [exact If|]. apply in_node; [discriminate|]. apply all_nil_r.
    apply in_node; [discriminate|]. apply matches_cons; [exact M|]. apply (matches_cons _ t [k]); [exact Mt|]. apply all_nil_r, M2.
  - apply ex_value; [here|]. cbn [map]. unfold kv. rewrite V, V'. cbn [root_of top]. rewrite <- Rt.
    replace (match right (S n) with CE _ | CO _ => N_expression | _ => N_expression end) with N_expression by (destruct (right (S n)); reflexivity).
    replace (top (right (S n))) with N_expression by (unfold right; destruct o; reflexivity).
    rewrite Pr. rewrite <- St. clear - Vi Na Ex.
    unfold build, named_kids, kids. cbn [flat_map fst snd root]. rewrite Vi.
    change (visible N_expression) with true. cbn [app filter fst root]. rewrite Na.
    change (named N_expression) with true. cbn [length Nat.eqb].
    unfold field_of. change (find (fun e => field_eqb F_left (fst e)) (fields 17)) with (Some (F_left, 0)).
    change (find (fun e => field_eqb F_operator (fst e)) (fields 17)) with (Some (F_operator, 1)).
    change (find (fun e => field_eqb F_right (fst e)) (fields 17)) with (Some (F_right, 2)).
    cbv iota beta. cbn [filter fst extra]. rewrite Ex. reflexivity.
Qed.

Lemma unary_ok m x k e ks : In x [T_DASH; T_BANG] -> is x k -> exp_ok true 1 e ks -> exp_ok true m (EUn (k_text k) e) (k :: ks).
Proof.
  intros I K (p & cs & M & V).
  destruct I as [<-|[<-|[]]];
    (eapply open_in; [| | |eapply (matches_cons _ _ [k]); [apply in_node; [|apply all_nil_r, is_matches; [exact K|]]|apply all_nil_r, M]|];
      [here|discriminate|here|discriminate|discriminate|]);
    cbn [map]; unfold kv; rewrite V;
    match goal with |- context [Node N_unary_operator ?p [leaf ?x k] false] =>
      transitivity (Some (EUn (source (Node N_unary_operator p [leaf x k] false)) e)); [reflexivity|rewrite source_node; reflexivity] end.
Qed.

Lemma lambda_ok m a xs ps b ms e ks :
  is T_PIPE a -> lambda_params xs ps -> is T_PIPE b -> comments ms -> exp_ok true 1 e ks ->
  exp_ok true m (ELambda xs (BExpr e)) (a :: ps ++ b :: ms ++ ks).
Proof.
  intros A P B C (p & cs & M & V). destruct P as [|xs ps P].
  - eapply open_in; [| | |tok; cbn [app]; eapply noted_on; [exact B|discriminate|exact C|apply all_nil_r, M]|]; [here|discriminate|here|].
    cbn [map]. rewrite (map_app kv). match goal with |- context [build _ _ (?a :: ?b :: ?r)] => change (a :: b :: r) with ([a; b] ++ r) end.
    rewrite build_noted by here. unfold kv. cbn [map app]. rewrite V. reflexivity.
  - destruct (params_read _ _ P) as (p' & cs' & M' & V').
    eapply open_in; [| | |tok; apply matches_cons; [exact M'|eapply noted_on; [exact B|discriminate|exact C|apply all_nil_r, M]]|]; [here|discriminate|here|].
    cbn [map]. rewrite (map_app kv). match goal with |- context [build _ _ (?a :: ?b :: ?c :: ?r)] => change (a :: b :: c :: r) with ([a; b; c] ++ r) end.
    rewrite build_noted by here. unfold kv. cbn [map app]. rewrite V, V'. reflexivity.
Qed.

(** ** Statements *)

Definition stmt_ok (s : stmt) (ks : list tok) : Prop :=
  exists p cs, matches (Ct CStmt) (Node N_statement p cs false) ks /\ value_at (Node N_statement p cs false) = VStmt s.

(** What a list of statements has for children. *)
Inductive stated : list kid -> list stmt -> Prop :=
| stated_nil : stated [] []
| stated_end x k l ss : In x [T_LF; T_SEMI] -> stated l ss -> stated ((leaf x k, VSkip) :: l) ss
| stated_note k l ss : k_sym k = T_comment -> stated l ss -> stated ((note k, VSkip) :: l) ss
| stated_stmt t s l ss : named (root t) = true -> stated l ss -> stated ((t, VStmt s) :: l) (s :: ss)
| stated_block t bs l ss : named (root t) = true -> stated l ss -> stated ((t, VBlock bs) :: l) (SBlock bs :: ss).

Lemma stated_app l ss l' ss' : stated l ss -> stated l' ss' -> stated (l ++ l') (ss ++ ss').
Proof. induction 1; intros H'; cbn [app]; [exact H'| | | |]; constructor; auto. Qed.

Lemma stated_notes ms l ss : comments ms -> stated l ss -> stated (noted_kids ms ++ l) ss.
Proof.
  intros C H. induction C as [|k ms (c & w & X & _) C IH]; [exact H|]. cbn [noted_kids map app]. apply stated_note; [exact X|exact IH].
Qed.

Lemma stated_noted ms l ss : comments ms -> stated l ss -> stated (l ++ noted_kids ms) ss.
Proof.
  intros C H. rewrite <- (app_nil_r ss). apply stated_app; [exact H|]. rewrite <- (app_nil_r (noted_kids ms)).
  apply stated_notes; [exact C|constructor].
Qed.

Definition stmt_kid (c : kid) : option (list stmt) :=
  match snd c with
  | VBlock ss => Some [SBlock ss]
  | VStmt s => Some [s]
  | VSkip => Some []
  | _ => None
  end.

Lemma stated_stmts l ss : stated l ss -> stmts_of l = Some ss /\ stmts_of (filter (fun c => named (root (fst c))) l) = Some ss.
Proof.
  change (stmts_of l) with (option_map (@concat stmt) (all stmt_kid l)).
  change (stmts_of (filter (fun c => named (root (fst c))) l))
    with (option_map (@concat stmt) (all stmt_kid (filter (fun c => named (root (fst c))) l))).
  induction 1 as [|x k l ss I H [IH1 IH2]|k l ss X H [IH1 IH2]|t s l ss N H [IH1 IH2]|t bs l ss N H [IH1 IH2]];
    [split; reflexivity| | | |]; cbn [filter fst].
  - split.
    + cbn [all stmt_kid snd]. destruct (all stmt_kid l); [|discriminate]. exact IH1.
    + destruct I as [<-|[<-|[]]]; exact IH2.
  - split.
    + cbn [all stmt_kid snd]. destruct (all stmt_kid l); [|discriminate]. exact IH1.
    + unfold note at 1. cbn [root]. rewrite X. change (named T_comment) with true. cbv iota. cbn [all stmt_kid snd].
      destruct (all stmt_kid (filter (fun c : tree * value => named (root (fst c))) l)); [|discriminate]. exact IH2.
  - rewrite N. cbn [all stmt_kid snd]. destruct (all stmt_kid l); [|discriminate]. destruct (all stmt_kid (filter (fun c : tree * value => named (root (fst c))) l)); [|discriminate].
    cbn [option_map] in IH1, IH2 |- *. injection IH1 as <-. injection IH2 as E. cbn [concat app]. rewrite E. split; reflexivity.
  - rewrite N. cbn [all stmt_kid snd]. destruct (all stmt_kid l); [|discriminate]. destruct (all stmt_kid (filter (fun c : tree * value => named (root (fst c))) l)); [|discriminate].
    cbn [option_map] in IH1, IH2 |- *. injection IH1 as <-. injection IH2 as E. cbn [concat app]. rewrite E. split; reflexivity.
Qed.

Definition initial_ok (o : option expr) (ks : list tok) : Prop :=
  (o = None /\ ks = []) \/
  exists e k p cs, o = Some e /\ matches_all [tk T_EQ; X] [leaf T_EQ k; Node N_expression p cs false] ks /\
    value_at (Node N_expression p cs false) = VExpr e.

Definition closed_ok (s : stmt) (ks : list tok) : Prop :=
  exists p cs l, matches (Ct CClosed) (Node N__line_insensitive_statement p cs false) ks /\
    value_at (Node N__line_insensitive_statement p cs false) = VHidden l /\ stated l [s].

Definition block_ok (ss : list stmt) (ks : list tok) : Prop :=
  exists p cs, matches (Ct CBlock) (Node N_block p cs false) ks /\ value_at (Node N_block p cs false) = VBlock ss.

Definition body_ok (brk : bool) (ss : list stmt) (ks : list tok) : Prop :=
  exists p cs, matches (Ct (if brk then CBlock1 else CBlockL)) (Node N_block p cs false) ks /\
    (brk = true -> matches (Ct CBlock) (Node N_block p cs false) ks) /\
    value_at (Node N_block p cs false) = VBlock ss.

Definition line_ok (s : stmt) (ks : list tok) : Prop :=
  exists p cs l, matches (Ct CLine) (Node N__statement_list p cs false) ks /\
    value_at (Node N__statement_list p cs false) = VHidden l /\ stated l [s].

Definition lines_ok (ss : list stmt) (ks : list tok) : Prop :=
  exists p cs l, matches (Ct CLines) (Node N__statement_list p cs false) ks /\
    value_at (Node N__statement_list p cs false) = VHidden l /\ stated l ss.

Lemma lambda_block_ok m a xs ps b ms ss ks :
  is T_PIPE a -> lambda_params xs ps -> is T_PIPE b -> comments ms -> body_ok false ss ks ->
  exp_ok true m (ELambda xs (BBlock ss)) (a :: ps ++ b :: ms ++ ks).
Proof.
  intros A P B C (p & cs & M & _ & V). destruct P as [|xs ps P].
  - eapply open_in; [| | |tok; cbn [app]; eapply noted_on; [exact B|discriminate|exact C|apply all_nil_r, M]|]; [here|discriminate|here|].
    cbn [map]. rewrite (map_app kv). match goal with |- context [build _ _ (?a :: ?b :: ?r)] => change (a :: b :: r) with ([a; b] ++ r) end.
    rewrite build_noted by here. unfold kv. cbn [map app]. rewrite V. reflexivity.
  - destruct (params_read _ _ P) as (p' & cs' & M' & V').
    eapply open_in; [| | |tok; apply matches_cons; [exact M'|eapply noted_on; [exact B|discriminate|exact C|apply all_nil_r, M]]|]; [here|discriminate|here|].
    cbn [map]. rewrite (map_app kv). match goal with |- context [build _ _ (?a :: ?b :: ?c :: ?r)] => change (a :: b :: c :: r) with ([a; b; c] ++ r) end.
    rewrite build_noted by here. unfold kv. cbn [map app]. rewrite V, V'. reflexivity.
Qed.

Lemma stmt_in f t ks s :
  In f statements -> matches f t ks -> root t <> N_expression -> visible (root t) = true -> value_at t = VStmt s -> stmt_ok s ks.
Proof.
  intros I M R Vi V. eexists _, _. split.
  - eapply matches_cat; [apply (in_map (fun f => Nd N_statement [f]) _ _ I)|]. apply in_node; [discriminate|]. apply all_nil_r, M.
  - rewrite value_node. cbn [map]. unfold kv. rewrite V. unfold build, kids. cbn [flat_map fst snd]. rewrite Vi. cbn [app].
    destruct (root t); try reflexivity. contradiction.
Qed.

Lemma expr_ok e ks : exp_ok true 1 e ks -> stmt_ok (SExpr e) ks.
Proof.
  intros (p & cs & M & V). eexists _, _. split.
  - eapply matches_cat; [|apply in_node; [|apply all_nil_r, M]]; [here|discriminate].
  - rewrite value_node. cbn [map]. unfold kv. rewrite V. reflexivity.
Qed.

Ltac stm M := eapply stmt_in; [ |apply in_node; [ |M]| | | ]; [here|discriminate|discriminate|reflexivity| ].

Lemma print_ok k e ks : is T_print k -> exp_ok true 1 e ks -> stmt_ok (SPrint e) (k :: ks).
Proof.
  intros K (p & cs & M & V). stm ltac:(tok; apply all_nil_r, M).
  rewrite value_node. cbn [map]. unfold kv. rewrite V. reflexivity.
Qed.

Lemma assert_ok k e ks : is T_assert k -> exp_ok true 1 e ks -> stmt_ok (SAssert e (source_of ks)) (k :: ks).
Proof.
  intros K (p & cs & M & V). stm ltac:(tok; apply all_nil_r, M).
  rewrite value_node. cbn [map]. unfold kv. rewrite V. rewrite <- (source_matches _ _ _ M). reflexivity.
Qed.

Lemma return_nothing_ok k : is T_return k -> stmt_ok (SReturn None) [k].
Proof. intros K. stm ltac:(tok; apply matches_nil). reflexivity. Qed.

Lemma return_ok k e ks : is T_return k -> exp_ok true 1 e ks -> stmt_ok (SReturn (Some e)) (k :: ks).
Proof.
  intros K (p & cs & M & V). stm ltac:(tok; apply all_nil_r, M).
  rewrite value_node. cbn [map]. unfold kv. rewrite V. reflexivity.
Qed.

Lemma assign_ok x kx k e ks :
  name_is x kx -> is T_EQ k -> exp_ok true 1 e ks -> stmt_ok (SAssign (LId x) x e) (kx :: k :: ks).
Proof.
  intros N K (p & cs & M & V). pose proof N as (_ & W & _). stm ltac:(do 2 tok; apply all_nil_r, M).
  rewrite value_node. cbn [map]. unfold kv. rewrite V.
  transitivity (VStmt (SAssign (LId (source (id_tree kx))) (source (id_tree kx)) e)); [reflexivity|].
  unfold id_tree. rewrite source_node, W. reflexivity.
Qed.

Lemma assign_access_ok a ka d x kx k e ks :
  exp_ok false 7 a ka -> is T_DOT d -> name_is x kx -> is T_EQ k -> exp_ok true 1 e ks ->
  stmt_ok (SAssign (LAccess a x) (source_of (ka ++ [d; kx])) e) (ka ++ d :: kx :: k :: ks).
Proof.
  intros A D N K (p & cs & M & V). destruct (access_read _ _ _ _ _ A D N) as (p' & cs' & M' & V').
  change (ka ++ d :: kx :: k :: ks) with (ka ++ [d; kx] ++ k :: ks). rewrite app_assoc.
  stm ltac:(apply matches_cons; [exact M'|]; tok; apply all_nil_r, M).
  rewrite value_node. cbn [map]. unfold kv. rewrite V, V', <- (source_matches _ _ _ M'). reflexivity.
Qed.

Lemma assign_index_ok a ka l ms i ki r k e ks :
  exp_ok false 7 a ka -> is T_LBRACK l -> comments ms -> exp_ok true 1 i ki -> is T_RBRACK r -> is T_EQ k -> exp_ok true 1 e ks ->
  stmt_ok (SAssign (LIndex a i) (source_of (ka ++ l :: ms ++ ki ++ [r])) e) (ka ++ l :: ms ++ ki ++ r :: k :: ks).
Proof.
  intros A L C I R K (p & cs & M & V). destruct (index_read _ _ _ _ _ _ _ A L C I R) as (p' & cs' & M' & V').
  replace (ka ++ l :: ms ++ ki ++ r :: k :: ks) with ((ka ++ l :: ms ++ ki ++ [r]) ++ k :: ks)
    by (rewrite <- app_assoc; cbn [app]; rewrite <- !app_assoc; reflexivity).
  stm ltac:(apply matches_cons; [exact M'|]; tok; apply all_nil_r, M).
  rewrite value_node. cbn [map]. unfold kv. rewrite V, V', <- (source_matches _ _ _ M'). reflexivity.
Qed.

Lemma import_ok k xs ks : is T_import k -> path_is xs ks -> stmt_ok (SImport false xs) (k :: ks).
Proof.
  intros K P. destruct (path_read _ _ P) as (p & cs & M & V). stm ltac:(tok; apply all_nil_r, M).
  rewrite value_node. cbn [map]. unfold kv. rewrite V. reflexivity.
Qed.

Lemma import_relative_ok k d xs ks : is T_import k -> is T_DOT d -> path_is xs ks -> stmt_ok (SImport true xs) (k :: d :: ks).
Proof.
  intros K D P. destruct (path_read _ _ P) as (p & cs & M & V).
  stm ltac:(tok; eapply (matches_cons (Nd N_import_relative_dot [tk T_DOT]) _ [d]); [apply in_node; [discriminate|apply all_nil_r, is_matches; [exact D|discriminate]]|apply all_nil_r, M]).
  rewrite value_node. cbn [map]. unfold kv. rewrite V. reflexivity.
Qed.

Lemma let_ok q kq k x kx kt o ko :
  qualifiers_is q kq -> is T_let k -> name_is x kx -> typed_is T_COLON kt -> initial_ok o ko ->
  kq = [] \/ kt = [] \/ ko = [] -> stmt_ok (SLet q x o) (kq ++ k :: kx :: kt ++ ko).
Proof.
  intros Q K N T I Few. pose proof N as (_ & W & _).
  assert (Sx : source (id_tree kx) = x) by (unfold id_tree; rewrite source_node; exact W). rewrite <- Sx.
  destruct (qualifiers_read _ _ Q) as [[-> ->]|(Nq & pq & cq & Mq & Vq)];
    destruct (typed_read T_COLON _ ltac:(discriminate) T) as [->|(c & pt & ct & Mt)];
    destruct I as [[-> ->]|(e & ke & pe & ce & -> & Me & Ve)]; cbn [app].
  - stm ltac:(do 2 tok; apply matches_nil). reflexivity.
  - stm ltac:(do 2 tok; exact Me). rewrite value_node. cbn [map]. unfold kv. rewrite Ve. reflexivity.
  - rewrite app_nil_r. stm ltac:(do 2 tok; exact Mt). reflexivity.
  - stm ltac:(do 2 tok; exact (all_app _ _ _ _ _ _ Mt Me)). rewrite value_node. cbn [map app]. unfold kv. rewrite Ve. reflexivity.
  - stm ltac:(apply matches_cons; [exact Mq|]; do 2 tok; apply matches_nil).
    rewrite value_node. cbn [map]. unfold kv. rewrite Vq. reflexivity.
  - stm ltac:(apply matches_cons; [exact Mq|]; do 2 tok; exact Me).
    rewrite value_node. cbn [map]. unfold kv. rewrite Vq, Ve. reflexivity.
  - rewrite app_nil_r. stm ltac:(apply matches_cons; [exact Mq|]; do 2 tok; exact Mt).
    rewrite value_node. cbn [map]. unfold kv. rewrite Vq. reflexivity.
  - exfalso. destruct Few as [H|[H|H]]; [contradiction| |].
    + subst kt. destruct (proj2 first_token _ _ _ Mt) as (? & ? & ? & _). discriminate.
    + subst ko. destruct (proj2 first_token _ _ _ Me) as (? & ? & ? & _). discriminate.
Qed.

Inductive qual_parts : bool -> list form -> list tree -> list tok -> Prop :=
| quals_none : qual_parts false [] [] []
| quals_some q p cs ks : matches quals (Node N_qualifier_list p cs false) ks ->
    value_at (Node N_qualifier_list p cs false) = VStatic q -> qual_parts q [quals] [Node N_qualifier_list p cs false] ks.

Inductive sign_parts : list bytes -> list form -> list tree -> list tok -> Prop :=
| sign_none : sign_parts [] [] [] []
| sign_empty a b ks : matches_all [tk T_LPAREN; tk T_RPAREN] [leaf T_LPAREN a; leaf T_RPAREN b] ks ->
    sign_parts [] [tk T_LPAREN; tk T_RPAREN] [leaf T_LPAREN a; leaf T_RPAREN b] ks
| sign_some xs a p cs b ks :
    matches_all [tk T_LPAREN; Ct CParams; tk T_RPAREN] [leaf T_LPAREN a; Node N_param_list p cs false; leaf T_RPAREN b] ks ->
    value_at (Node N_param_list p cs false) = VParams xs ->
    sign_parts xs [tk T_LPAREN; Ct CParams; tk T_RPAREN] [leaf T_LPAREN a; Node N_param_list p cs false; leaf T_RPAREN b] ks.

Inductive type_parts (x : sym) : list form -> list tree -> list tok -> Prop :=
| type_none : type_parts x [] [] []
| type_some k p cs ks : matches_all [tk x; Ct CType] [leaf x k; Node N_type p cs false] ks ->
    type_parts x [tk x; Ct CType] [leaf x k; Node N_type p cs false] ks.

Lemma quals_parted q ks : qualifiers_is q ks -> exists l cs, matches_all l cs ks /\ qual_parts q l cs ks.
Proof.
  intros Q. destruct (qualifiers_read _ _ Q) as [[-> ->]|(Nq & pq & cq & Mq & Vq)].
  - exists [], []. split; constructor.
  - eexists _, _. split; [|eapply quals_some; [exact Mq|exact Vq]]. apply all_nil_r, Mq.
Qed.

Lemma sign_parted xs ks : signature_is xs ks -> exists l cs, matches_all l cs ks /\ sign_parts xs l cs ks.
Proof.
  intros Q. destruct (signature_read _ _ Q) as [[-> ->]|[(-> & a & b & M)|(a & p & cs & b & M & V)]].
  - exists [], []. split; constructor.
  - eexists _, _. split; [exact M|]. apply sign_empty, M.
  - eexists _, _. split; [exact M|]. apply sign_some; [exact M|exact V].
Qed.

Lemma type_parted x ks : x <> T_POUND_POUND -> typed_is x ks -> exists l cs, matches_all l cs ks /\ type_parts x l cs ks.
Proof.
  intros X0 Q. destruct (typed_read _ _ X0 Q) as [->|(k & p & cs & M)].
  - exists [], []. split; constructor.
  - eexists _, _. split; [exact M|]. apply type_some, M.
Qed.

Lemma proto_ok q kq k x kx xs ks kt :
  qualifiers_is q kq -> is T_proto k -> name_is x kx -> signature_is xs ks -> typed_is T_DASH_GT kt ->
  stmt_ok (SProto q x xs) (kq ++ k :: kx :: ks ++ kt).
Proof.
  intros Q K N P T. pose proof N as (_ & W & _).
  assert (Sx : source (id_tree kx) = x) by (unfold id_tree; rewrite source_node; exact W). rewrite <- Sx.
  destruct (quals_parted _ _ Q) as (lq & cq & Mq & Pq). destruct (sign_parted _ _ P) as (ls & cs & Ms & Ps).
  destruct (type_parted T_DASH_GT _ ltac:(discriminate) T) as (lt & ct & Mt & Pt).
  assert (M : matches_all (lq ++ tk T_proto :: ident :: ls ++ lt) (cq ++ leaf T_proto k :: id_tree kx :: cs ++ ct) (kq ++ k :: kx :: ks ++ kt)).
  { apply all_app; [exact Mq|]. do 2 tok. apply all_app; [exact Ms|exact Mt]. }
  clear Mq Ms Mt.
  eapply stmt_in; [|eapply in_node; [|exact M]| | |].
  - destruct Pq, Ps, Pt; cbn [app]; here.
  - destruct Pq; discriminate.
  - discriminate.
  - reflexivity.
  - rewrite value_node. clear M Q P T.
    destruct Pq as [|q p0 c0 k0 M0 V0], Ps as [|a b k1 M1|xs a p1 c1 b k1 M1 V1], Pt as [|? p2 c2 k2 M2]; cbn [map app]; unfold kv;
      try rewrite V0; try rewrite V1; reflexivity.
Qed.

(** ** Statements that end themselves *)

Lemma closed_in f t ks s v :
  In (Nd N__line_insensitive_statement [f]) (shapes CClosed) -> matches f t ks ->
  visible (root t) = true -> value_at t = v -> stated [(t, v)] [s] -> closed_ok s ks.
Proof.
  intros I M Vi V St. eexists _, _, _. split; [|split].
  - eapply matches_cat; [exact I|]. apply in_node; [discriminate|]. apply all_nil_r, M.
  - rewrite value_node. cbn [map]. unfold kv. rewrite V. unfold build, kids. cbn [flat_map fst snd]. rewrite Vi. cbn [app]. reflexivity.
  - exact St.
Qed.

Lemma block_closed_ok ss ks : body_ok true ss ks -> closed_ok (SBlock ss) ks.
Proof.
  intros (p & cs & M & _ & V). eapply closed_in; [|exact M|reflexivity|exact V|]; [here|].
  apply stated_block; [reflexivity|constructor].
Qed.

Lemma class_ok k x kx xs ks ss kb :
  is T_class k -> name_is x kx -> signature_is xs ks -> block_ok ss kb -> closed_ok (SClass false x xs ss) (k :: kx :: ks ++ kb).
Proof.
  intros K N P (pb & cb & Mb & Vb). pose proof N as (_ & W & _).
  assert (Sx : source (id_tree kx) = x) by (unfold id_tree; rewrite source_node; exact W). rewrite <- Sx.
  destruct (sign_parted _ _ P) as (ls & cs & Ms & Ps).
  assert (M : matches_all (tk T_class :: ident :: ls ++ [Ct CBlock]) (leaf T_class k :: id_tree kx :: cs ++ [Node N_block pb cb false]) (k :: kx :: ks ++ kb)).
  { do 2 tok. apply all_app; [exact Ms|]. apply all_nil_r, Mb. }
  clear Ms.
  eapply (closed_in (Nd N_class_declaration (tk T_class :: ident :: ls ++ [Ct CBlock]))); [|eapply in_node; [|exact M]|reflexivity| |apply stated_stmt; [reflexivity|constructor]].
  - destruct Ps; cbn [app]; here.
  - discriminate.
  - rewrite value_node. clear M P.
    destruct Ps as [|a b k1 M1|xs a p1 c1 b k1 M1 V1]; cbn [map app]; unfold kv; try rewrite V1; rewrite Vb; reflexivity.
Qed.

Lemma fun_ok q kq k x kx xs ks kt ss kb :
  qualifiers_is q kq -> is T_fn k -> name_is x kx -> signature_is xs ks -> typed_is T_DASH_GT kt -> block_ok ss kb ->
  closed_ok (SFun q x xs ss) (kq ++ k :: kx :: ks ++ kt ++ kb).
Proof.
  intros Q K N P T (pb & cb & Mb & Vb). pose proof N as (_ & W & _).
  assert (Sx : source (id_tree kx) = x) by (unfold id_tree; rewrite source_node; exact W). rewrite <- Sx.
  destruct (quals_parted _ _ Q) as (lq & cq & Mq & Pq). destruct (sign_parted _ _ P) as (ls & cs & Ms & Ps).
  destruct (type_parted T_DASH_GT _ ltac:(discriminate) T) as (lt & ct & Mt & Pt).
  assert (M : matches_all (lq ++ tk T_fn :: ident :: ls ++ lt ++ [Ct CBlock])
    (cq ++ leaf T_fn k :: id_tree kx :: cs ++ ct ++ [Node N_block pb cb false]) (kq ++ k :: kx :: ks ++ kt ++ kb)).
  { apply all_app; [exact Mq|]. do 2 tok. apply all_app; [exact Ms|]. apply all_app; [exact Mt|]. apply all_nil_r, Mb. }
  clear Mq Ms Mt.
  eapply (closed_in (Nd N_function_declaration (lq ++ tk T_fn :: ident :: ls ++ lt ++ [Ct CBlock]))); [|eapply in_node; [|exact M]|reflexivity| |apply stated_stmt; [reflexivity|constructor]].
  - destruct Pq, Ps, Pt; cbn [app]; here.
  - destruct Pq; discriminate.
  - rewrite value_node. clear M Q P T.
    destruct Pq as [|q p0 c0 k0 M0 V0], Ps as [|a b k1 M1|xs a p1 c1 b k1 M1 V1], Pt as [|? p2 c2 k2 M2]; cbn [map app]; unfold kv;
      try rewrite V0; try rewrite V1; rewrite Vb; reflexivity.
Qed.

(** ** Blocks and lines *)

Lemma block_value p ms l ns a b :
  value_at (Node N_block p (leaf T_LBRACE a :: ms ++ l ++ ns ++ [leaf T_RBRACE b]) false) =
  to_value VBlock (stmts_of (filter (fun c => named (root (fst c))) (kids (map kv (ms ++ l ++ ns))))).
Proof.
  rewrite value_node. unfold build, named_kids. cbn [map]. rewrite !(map_app kv). cbn [map].
  change (kv (leaf T_LBRACE a) :: map kv ms ++ map kv l ++ map kv ns ++ [kv (leaf T_RBRACE b)])
    with ([kv (leaf T_LBRACE a)] ++ map kv ms ++ map kv l ++ map kv ns ++ [kv (leaf T_RBRACE b)]).
  rewrite !kids_app, !filter_app.
  change (filter (fun c : kid => named (root (fst c))) (kids [kv (leaf T_LBRACE a)])) with (@nil kid).
  change (filter (fun c : kid => named (root (fst c))) (kids [kv (leaf T_RBRACE b)])) with (@nil kid).
  cbn [app]. rewrite app_nil_r. reflexivity.
Qed.

Lemma block_empty_ok a cs b : is T_LBRACE a -> comments cs -> closing true b -> block_ok [] (a :: cs ++ [b]).
Proof.
  intros A C B. eexists _, _. split.
  - eapply matches_cat; [|apply in_node; [|apply all_noted; [exact A|discriminate|exact C| |tok; apply matches_nil]]]; [here|discriminate|discriminate].
  - rewrite (block_value _ (map note cs) [] [] a b). cbn [app]. rewrite app_nil_r, (notes_kids _ C).
    pose proof (stated_noted cs [] [] C stated_nil) as St. cbn [app] in St. rewrite (proj2 (stated_stmts _ _ St)). reflexivity.
Qed.

Lemma block_some_ok ss ks : body_ok true ss ks -> block_ok ss ks.
Proof. intros (p & cs & _ & M & V). exists p, cs. split; [exact (M eq_refl)|exact V]. Qed.

Lemma body_in brk f ss t cs ks p :
  In (Nd N_block f) (bodies brk) -> matches_all f (t :: cs) ks -> p = production N_block (map root_of f) ->
  value_at (Node N_block p (t :: cs) false) = VBlock ss -> body_ok brk ss ks.
Proof.
  intros I M -> V. exists (production N_block (map root_of f)), (t :: cs).
  assert (MM : matches (Nd N_block f) (Node N_block (production N_block (map root_of f)) (t :: cs) false) ks).
  { apply in_node; [|exact M]. intros ->. inversion M. }
  split; [|split; [|exact V]].
  - destruct brk; (eapply matches_cat; [exact I|exact MM]).
  - intros ->. eapply matches_cat; [right; exact I|exact MM].
Qed.

Lemma body_lines_ok brk a ms ss ks ns b : is T_LBRACE a -> comments ms -> lines_ok ss ks -> comments ns -> closing brk b ->
  body_ok brk ss (a :: ms ++ ks ++ ns ++ [b]).
Proof.
  intros A Cm (p & cs & l & M & V & St) Cn B.
  eapply (body_in brk [tk T_LBRACE; Ct CLines; Tk T_RBRACE brk]);
    [|apply all_noted; [exact A|discriminate|exact Cm| |apply matches_note; [exact M|exact Cn| |tok; apply matches_nil]]; discriminate|reflexivity|].
  - destruct brk; here.
  - pose proof (block_value (production N_block (map root_of [tk T_LBRACE; Ct CLines; Tk T_RBRACE brk]))
      (map note ms) [Node N__statement_list p cs false] (map note ns) a b) as Bv. cbn [app] in Bv |- *. rewrite Bv. clear Bv.
    rewrite (map_app kv). cbn [map].
    change (kv (Node N__statement_list p cs false) :: map kv (map note ns)) with ([kv (Node N__statement_list p cs false)] ++ map kv (map note ns)).
    rewrite !kids_app, (notes_kids _ Cm), (notes_kids _ Cn). unfold kv at 1. rewrite V.
    unfold kids. cbn [flat_map root fst snd]. change (visible N__statement_list) with false. cbv iota. rewrite app_nil_r.
    rewrite (proj2 (stated_stmts _ _ (stated_notes _ _ _ Cm (stated_noted _ _ _ Cn St)))). reflexivity.
Qed.

Lemma body_one_ok brk a ms s ks b : is T_LBRACE a -> comments ms -> stmt_ok s ks -> closing brk b ->
  body_ok brk [s] (a :: ms ++ ks ++ [b]).
Proof.
  intros A Cm (p & cs & M & V) B.
  eapply (body_in brk [tk T_LBRACE; Ct CStmt; Tk T_RBRACE brk]);
    [|apply all_noted; [exact A|discriminate|exact Cm|discriminate|apply matches_cons; [exact M|tok; apply matches_nil]]|reflexivity|].
  - destruct brk; here.
  - pose proof (block_value (production N_block (map root_of [tk T_LBRACE; Ct CStmt; Tk T_RBRACE brk]))
      (map note ms) [Node N_statement p cs false] [] a b) as Bv. cbn [app] in Bv |- *. rewrite Bv. clear Bv.
    rewrite (map_app kv). cbn [map]. rewrite kids_app, (notes_kids _ Cm). unfold kv at 1. rewrite V.
    assert (St : stated [(Node N_statement p cs false, VStmt s)] [s]) by (apply stated_stmt; [reflexivity|constructor]).
    change (kids [(Node N_statement p cs false, VStmt s)]) with [(Node N_statement p cs false, VStmt s)].
    rewrite (proj2 (stated_stmts _ _ (stated_notes _ _ _ Cm St))). reflexivity.
Qed.

Lemma line_closed_ok s ks : closed_ok s ks -> line_ok s ks.
Proof.
  intros (p & cs & l & M & V & St). eexists _, _, _. split; [|split].
  - eapply matches_cat; [|apply in_node; [|apply all_nil_r, M]]; [here|discriminate].
  - rewrite value_node. cbn [map]. unfold kv. rewrite V. unfold build, kids. cbn [flat_map root fst snd].
    change (visible N__line_insensitive_statement) with false. cbv iota. rewrite app_nil_r. reflexivity.
  - exact St.
Qed.

Lemma line_ended_ok s ks ms k : stmt_ok s ks -> comments ms -> end_is k -> line_ok s (ks ++ ms ++ [k]).
Proof.
  intros (p & cs & M & V) C E.
  assert (H : exists x, In x [T_LF; T_SEMI] /\ matches (tk x) (leaf x k) [k]).
  { destruct E as [E|(E & W & F & B)].
    - exists T_SEMI. split; [here|]. apply is_matches; [exact E|discriminate].
    - exists T_LF. split; [here|]. apply matches_tok; [exact E|exact B|apply told_lines; assumption]. }
  destruct H as (x & I & Mx).
  assert (I' : In (Nd N__statement_list [Ct CStmt; tk x]) (shapes CLine)) by (destruct I as [<-|[<-|[]]]; here).
  eexists _, _, ([(Node N_statement p cs false, VStmt s)] ++ noted_kids ms ++ [(leaf x k, VSkip)]). split; [|split].
  - eapply matches_cat; [exact I'|]. apply in_node; [discriminate|].
    apply matches_note; [exact M|exact C|discriminate|]. apply all_nil_r, Mx.
  - rewrite value_node. cbn [map]. rewrite (map_app kv). cbn [map]. unfold kv at 1. rewrite V.
    change ((Node N_statement p cs false, VStmt s) :: map kv (map note ms) ++ [kv (leaf x k)])
      with ([(Node N_statement p cs false, VStmt s)] ++ map kv (map note ms) ++ [kv (leaf x k)]).
    unfold build. rewrite !kids_app, (notes_kids _ C). destruct I as [<-|[<-|[]]]; reflexivity.
  - apply stated_stmt; [reflexivity|]. apply stated_notes; [exact C|]. apply stated_end; [exact I|constructor].
Qed.

Lemma lines_one_ok s ks : line_ok s ks -> lines_ok [s] ks.
Proof.
  intros (p & cs & l & M & V & St). exists p, cs, l. split; [|split; assumption].
  eapply matches_cat; [|exact M]. here.
Qed.

Lemma lines_next_ok ss ks ms s ks' : lines_ok ss ks -> comments ms -> line_ok s ks' -> lines_ok (ss ++ [s]) (ks ++ ms ++ ks').
Proof.
  intros (p & cs & l & M & V & St) C (p' & cs' & l' & M' & V' & St'). eexists _, _, (l ++ noted_kids ms ++ l'). split; [|split].
  - eapply matches_cat; [|apply in_node; [|apply matches_note; [exact M|exact C| |apply all_nil_r, M']]]; [here|discriminate|discriminate].
  - rewrite value_node. cbn [map]. rewrite (map_app kv). cbn [map]. unfold kv at 1. unfold kv at 2. rewrite V, V'.
    change ((Node N__statement_list p cs false, VHidden l) :: map kv (map note ms) ++ [(Node N__statement_list p' cs' false, VHidden l')])
      with ([(Node N__statement_list p cs false, VHidden l)] ++ map kv (map note ms) ++ [(Node N__statement_list p' cs' false, VHidden l')]).
    unfold build. rewrite !kids_app, (notes_kids _ C). unfold kids. cbn [flat_map root fst snd].
    change (visible N__statement_list) with false. cbv iota. rewrite !app_nil_r. reflexivity.
  - apply stated_app; [exact St|]. apply stated_notes; assumption.
Qed.

(** ** All of it *)

Scheme expr_mind := Minimality for expr_is Sort Prop
  with list_mind := Minimality for list_is Sort Prop
  with more_mind := Minimality for more_is Sort Prop
  with item_mind := Minimality for item_is Sort Prop
  with items_mind := Minimality for items_is Sort Prop
  with more_items_mind := Minimality for more_items Sort Prop
  with stmt_mind := Minimality for stmt_is Sort Prop
  with initial_mind := Minimality for initial_is Sort Prop
  with closed_mind := Minimality for closed_is Sort Prop
  with block_mind := Minimality for block_is Sort Prop
  with body_mind := Minimality for body_is Sort Prop
  with line_mind := Minimality for line_is Sort Prop
  with lines_mind := Minimality for lines_is Sort Prop.

Combined Scheme all_mind from expr_mind, list_mind, more_mind, item_mind, items_mind, more_items_mind, stmt_mind, initial_mind,
  closed_mind, block_mind, body_mind, line_mind, lines_mind.

Lemma initial_some_ok k e ks : is T_EQ k -> exp_ok true 1 e ks -> initial_ok (Some e) (k :: ks).
Proof.
  intros K (p & cs & M & V). right. exists e, k, p, cs. split; [reflexivity|]. split; [|exact V]. tok. apply all_nil_r, M.
Qed.

Ltac by_ l := eapply l; eassumption.

Lemma all_ok :
  (forall o m e ks, expr_is o m e ks -> exp_ok o m e ks) /\ (forall n es ks, list_is n es ks -> list_ok n es ks) /\
  (forall n es ks, more_is n es ks -> more_ok n es ks) /\ (forall i ks, item_is i ks -> item_ok i ks) /\
  (forall es ks, items_is es ks -> items_ok es ks) /\ (forall es ks, more_items es ks -> more_items_ok es ks) /\
  (forall s ks, stmt_is s ks -> stmt_ok s ks) /\ (forall o ks, initial_is o ks -> initial_ok o ks) /\
  (forall s ks, closed_is s ks -> closed_ok s ks) /\ (forall ss ks, block_is ss ks -> block_ok ss ks) /\
  (forall brk ss ks, body_is brk ss ks -> body_ok brk ss ks) /\ (forall s ks, line_is s ks -> line_ok s ks) /\
  (forall ss ks, lines_is ss ks -> lines_ok ss ks).
Proof.
  apply all_mind; intros.
  - by_ none_ok.
  - eapply (bool_ok _ _ true). eassumption.
  - eapply (bool_ok _ _ false). eassumption.
  - by_ number_ok.
  - by_ string_ok.
  - by_ id_ok.
  - by_ paren_ok.
  - by_ vec_empty_ok.
  - by_ vec_ok.
  - by_ map_empty_ok.
  - by_ map_ok.
  - by_ call_empty_ok.
  - by_ call_ok.
  - by_ access_ok.
  - by_ index_ok.
  - by_ binary_ok.
  - by_ unary_ok.
  - by_ lambda_ok.
  - by_ lambda_block_ok.
  - rewrite <- (app_nil_r ks). apply list_of; [assumption|apply tailed_none].
  - apply list_of; [assumption|apply tailed_comma; assumption].
  - apply list_of; [assumption|apply more_tailed; assumption].
  - apply list_of; [assumption|apply more_comma_tailed; assumption].
  - by_ more_ok_one.
  - by_ more_ok_next.
  - by_ item_of.
  - rewrite <- (app_nil_r ks). apply items_of; [assumption|apply tailed_none].
  - apply items_of; [assumption|apply tailed_comma; [assumption|apply some_notes; assumption]].
  - apply items_of; [assumption|apply more_items_tailed; assumption].
  - apply items_of; [assumption|apply more_items_comma_tailed; assumption].
  - by_ more_items_ok_one.
  - by_ more_items_ok_next.
  - by_ expr_ok.
  - by_ print_ok.
  - by_ assert_ok.
  - by_ return_nothing_ok.
  - by_ return_ok.
  - by_ let_ok.
  - by_ assign_ok.
  - by_ assign_access_ok.
  - by_ assign_index_ok.
  - by_ import_ok.
  - by_ import_relative_ok.
  - by_ proto_ok.
  - left. split; reflexivity.
  - by_ initial_some_ok.
  - by_ block_closed_ok.
  - by_ class_ok.
  - by_ fun_ok.
  - by_ block_empty_ok.
  - by_ block_some_ok.
  - by_ body_lines_ok.
  - by_ body_one_ok.
  - by_ line_closed_ok.
  - by_ line_ended_ok.
  - by_ lines_one_ok.
  - by_ lines_next_ok.
Qed.

(** A text that is laid out so that its tokens are told apart, and whose tokens make up a script, is read as that script. *)
Theorem script_read ss ks e : script_is ss ks -> laid true ks e -> script_in (written ks e) = Some ss.
Proof.
  intros S0 L. unfold script_in. destruct S0 as [ms C|ms ss ks ns Cm H Cn].
  - rewrite (reads_nothing ms e C L). unfold script_of. rewrite (map_app kv), kids_app, (notes_kids _ C).
    change (kids (map kv [Leaf T_end e [] true])) with (@nil kid).
    exact (proj1 (stated_stmts _ _ (stated_notes _ _ _ C stated_nil))).
  - destruct all_ok as (_ & _ & _ & _ & _ & _ & _ & _ & _ & _ & _ & _ & Lines). destruct (Lines _ _ H)
      as (p & cs & l & M & V & St).
    assert (MS : matches (Ct CSource) (Node N_source_file 0 [Node N__statement_list p cs false] false) ks).
    { eapply matches_cat; [here|].
      change 0%N with (production N_source_file (map root_of [Ct CLines])). apply matches_node; [discriminate|].
      apply all_nil_r, M. }
    rewrite (reads _ _ ms ks ns e MS Cm Cn L eq_refl). unfold script_of. rewrite !(map_app kv), !kids_app, (notes_kids _ Cm), (notes_kids _ Cn).
    change (kids (map kv [Leaf T_end e [] true])) with (@nil kid). rewrite app_nil_r.
    cbn [map]. unfold kv. rewrite V. unfold kids. cbn [flat_map root fst snd].
    change (visible N__statement_list) with false. cbv iota. rewrite app_nil_r.
    exact (proj1 (stated_stmts _ _ (stated_notes _ _ _ Cm (stated_noted _ _ _ Cn St)))).
Qed.

Lemma no_word x :
  forallb (fun y => negb (match word y with Some v => bytes_eqb v x | None => false end)) all_syms = true -> forall y, word y <> Some x.
Proof.
  intros H y E. pose proof (every_sym _ H y) as F. cbn beta in F. rewrite E in F.
  rewrite (proj2 (bytes_eqb_eq x x) eq_refl) in F. discriminate.
Qed.
