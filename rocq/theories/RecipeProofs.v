(** * From build scripts to what a build makes. *)

From Coq Require Import ZArith Arith Ascii String Lia Bool List.
From Verif Require Import Base Hash Cookie CookieProofs Build SpecBuild Plan SpecPlan Install Main Cmd FlAst FlState FlInterp FlFuel Bob SpecBob Project SpecProject BobProofs ProjectProofs.
Import ListNotations.
Local Open Scope nat_scope.

(** ** The requests of a script are in order *)
Section Order.
Variables (sg : bool) (out : bytes) (listing : bytes -> option (list bytes)) (inst_area : bytes -> Prop).
Notation source := (source (product_dir out) inst_area).

Lemma object_is s c : object sg out s = Some c -> object_of sg out s c.
Proof. unfold object, object_of. destruct (gen_cookie sg out s (lit "o")); congruence. Qed.
Lemma objects_made : forall ss cs, Forall2 (fun a b => object sg out a = Some b) ss cs -> flat_map (fun s => match object sg out s with Some c => [c] | None => [] end) ss = cs.
Proof. intros ss cs F. induction F as [|s c ss cs Q F IH]; [reflexivity|]. cbn [flat_map]. rewrite Q, IH. reflexivity. Qed.

Definition known_made (done : list bytes) (env : list (bytes * thing)) : Prop :=
  forall x t, meaning env x = Some t -> match t with ATool _ _ _ => True | Strings l => forall z, In z l -> source z \/ In z done | AString p => source p \/ In p done end.
Lemma known_more done more env x t : known_made done env -> match t with ATool _ _ _ => True | Strings l => forall z, In z l -> source z \/ In z (more ++ done) | AString p => source p \/ In p (more ++ done) end ->
  known_made (more ++ done) ((x, t) :: env).
Proof.
  intros K Q y u E. cbn in E. destruct (bytes_eqb x y).
  - injection E as <-. exact Q.
  - specialize (K y u E). destruct u; auto; [intros z I; destruct (K z I)|destruct K]; auto; right; apply in_app_iff; auto.
Qed.
Lemma one_known done env i p : known_made done env -> one_means env i = Some p -> In p (one_texts i) \/ source p \/ In p done.
Proof.
  intros K E. destruct i as [t|y|y k]; cbn [one_means one_texts] in *.
  - injection E as <-. left. now left.
  - destruct (meaning env y) as [[]|] eqn:M; try discriminate. injection E as <-. right. exact (K _ _ M).
  - destruct (meaning env y) as [[]|] eqn:M; try discriminate. destruct (number k); [|discriminate]. right. apply (K _ _ M). eapply nth_error_In; exact E.
Qed.
Lemma given_from done env : known_made done env -> forall g srcs, given_means listing env g = Some srcs -> forall s, In s srcs -> In s (given_named listing g) \/ source s \/ In s done.
Proof.
  intros K. induction g as [l|x|dir|g IH y c|g IHg h IHh]; intros srcs E s I; cbn [given_means given_named] in *.
  - apply all_forall2 in E. induction E as [|i p l r Q F IH]; [destruct I|]. cbn [flat_map]. rewrite in_app_iff. destruct I as [<-|I].
    + destruct (one_known _ _ _ _ K Q); auto.
    + destruct (IH I); auto.
  - destruct (meaning env x) as [[]|] eqn:M; try discriminate. injection E as <-. right. exact (K _ _ M _ I).
  - destruct (listing (cstr dir)) as [l|]; [|discriminate]. injection E as <-. now left.
  - destruct (given_means listing env g) as [l|] eqn:Eg; [|discriminate]. injection E as <-. apply filter_In in I as (I & P). rewrite filter_In. destruct (IH l eq_refl s I); auto.
  - destruct (given_means listing env g) as [a|]; [|discriminate]. destruct (given_means listing env h) as [b|]; [|discriminate]. injection E as <-. rewrite in_app_iff.
    apply in_app_iff in I as [I|I]; [destruct (IHg _ eq_refl s I)|destruct (IHh _ eq_refl s I)]; auto.
Qed.
Lemma given_known done env g srcs : known_made done env -> given_means listing env g = Some srcs -> (forall t, In t (given_named listing g) -> source t) -> forall s, In s srcs -> source s \/ In s done.
Proof. intros K E T s I. destruct (given_from _ _ K _ _ E s I); auto. Qed.
Lemma links_rest l ls : links_sources listing source (l :: ls) -> links_sources listing source ls.
Proof. intros T k t I. apply T. now right. Qed.
Lemma NoDup_app_parts {A} (a b : list A) : NoDup (a ++ b) -> NoDup a /\ NoDup b /\ forall x, In x a -> ~ In x b.
Proof.
  induction a as [|x a IH]; cbn; intro N; [repeat split; auto; constructor|]. inversion N as [|? ? X N']; subst. destruct (IH N') as (A1 & B1 & C1).
  split; [constructor; [intro I; apply X; apply in_app_iff; auto|exact A1]|]. split; [exact B1|]. intros y [<-|I] J; [apply X; apply in_app_iff; auto|exact (C1 y I J)].
Qed.

Lemma asks_in_order : forall ls env tools made rs env' done, asks sg out listing env tools made ls = Some (rs, env') -> known_made done env -> links_sources listing source ls ->
  NoDup (flat_map (req_makes sg out) rs) -> (forall o, In o (flat_map (req_makes sg out) rs) -> ~ In o done) -> in_order sg out inst_area done rs.
Proof.
  induction ls as [|l ls IH]; intros env tools made rs env' done E K T N D; [cbn [asks] in E; injection E as <- _; constructor|]. pose proof (links_rest _ _ T) as T'. specialize (T l).
  destruct l as [x o flags|x o t g|x i|x g]; cbn [asks] in E.
  - eapply (IH _ _ _ _ _ done E); auto. apply (known_more done [] env); auto.
  - destruct (tool_means env (op_class o) tools t) as [[[d flags] tools']|]; [|discriminate]. destruct (given_means listing env g) as [srcs|] eqn:G; [|discriminate].
    destruct (result_of sg out o srcs) as [r|] eqn:R; [|discriminate]. destruct (asks sg out listing ((x, r) :: env) tools' (S made) ls) as [[rs' env1]|] eqn:W; [|discriminate]. injection E as <- <-.
    cbn [flat_map] in N, D. apply NoDup_app_parts in N as (N1 & N2 & N3).
    destruct o as [|k]; cbn in R; cbn [request_for req_makes] in N1, N3, D |- *.
    + destruct (all (object sg out) srcs) as [cs|] eqn:A; [|discriminate]. cbn in R. injection R as <-. apply all_forall2 in A. rewrite (objects_made _ _ A) in N1, N3, D.
      apply io_compile with (cs := cs); auto.
      * constructor. clear - A. induction A; constructor; auto using object_is.
      * intros c I. apply D. apply in_app_iff. now left.
      * eapply IH; eauto.
        { apply known_more; [exact K|]. intros z I. right. apply in_app_iff. now left. }
        { intros z I J. apply in_app_iff in J as [J|J]; [exact (N3 z J I)|]. apply (D z); auto. apply in_app_iff. now right. }
    + injection R as <-. apply io_link.
      * eapply given_known; eauto. intros s I. apply (T s); [now left|exact I].
      * apply D. now left.
      * eapply (IH _ _ _ _ _ (_ :: done)); eauto.
        { apply (known_more done [link_cookie sg out k srcs] env); [exact K|]. right. now left. }
        { intros z I [<-|J]; [apply (N3 _ (or_introl eq_refl) I)|]. apply (D z); auto. apply in_app_iff. now right. }
  - destruct (one_means env i) as [w|] eqn:G; [|discriminate]. eapply (IH _ _ _ _ _ done E); auto. apply (known_more done [] env); [exact K|].
    destruct (one_known _ _ _ _ K G) as [Q|Q]; [left; apply (T w); [now left|exact Q]|exact Q].
  - destruct (given_means listing env g) as [ws|] eqn:G; [|discriminate]. eapply (IH _ _ _ _ _ done E); auto. apply (known_more done [] env); [exact K|].
    intros z I. eapply given_known; eauto. intros t It. apply (T t); [now left|exact It].
Qed.

(** ** Records *)
Lemma asks_link_ids : forall ls env tools made rs env' id k fl ss, asks sg out listing env tools made ls = Some (rs, env') -> In (RLink id k fl ss) rs -> exists m, made <= m /\ id = (2 * Z.of_nat m + 1)%Z.
Proof.
  induction ls as [|[x o flags|x o t g|x i|x g] ls IH]; intros env tools made rs env' id k fl ss E I; cbn [asks] in E.
  - injection E as <- <-. destruct I.
  - eapply IH; eauto.
  - destruct (tool_means env (op_class o) tools t) as [[[d flags] tools']|]; [|discriminate]. destruct (given_means listing env g) as [srcs|] eqn:G; [|discriminate].
    destruct (result_of sg out o srcs) as [r|] eqn:R; [|discriminate]. destruct (asks sg out listing ((x, r) :: env) tools' (S made) ls) as [[rs' env1]|] eqn:W; [|discriminate]. injection E as <- <-.
    destruct I as [Q|I]; [|destruct (IH _ _ _ _ _ _ _ _ _ W I) as (m & L & ->); exists m; split; [lia|reflexivity]].
    destruct o; [discriminate Q|]. exists made. split; [lia|]. cbn [request_for] in Q. inversion Q. reflexivity.
  - destruct (one_means env i) as [w|]; [|discriminate]. eapply IH; eauto.
  - destruct (given_means listing env g) as [w|]; [|discriminate]. eapply IH; eauto.
Qed.
Lemma asks_cc_ids : forall ls env tools made rs env' id fl ss, asks sg out listing env tools made ls = Some (rs, env') -> In (RCompile id fl ss) rs -> exists m, id = (2 * Z.of_nat m + 2)%Z.
Proof.
  induction ls as [|[x o flags|x o t g|x i|x g] ls IH]; intros env tools made rs env' id fl ss E I; cbn [asks] in E.
  - injection E as <- <-. destruct I.
  - eapply IH; eauto.
  - destruct (tool_means env (op_class o) tools t) as [[[d flags] tools']|]; [|discriminate]. destruct (given_means listing env g) as [srcs|] eqn:G; [|discriminate].
    destruct (result_of sg out o srcs) as [r|] eqn:R; [|discriminate]. destruct (asks sg out listing ((x, r) :: env) tools' (S made) ls) as [[rs' env1]|] eqn:W; [|discriminate]. injection E as <- <-.
    destruct I as [Q|I]; [|eapply IH; eauto].
    destruct o; [|discriminate Q]. exists d. cbn [request_for] in Q. inversion Q. reflexivity.
  - destruct (one_means env i) as [w|]; [|discriminate]. eapply IH; eauto.
  - destruct (given_means listing env g) as [w|]; [|discriminate]. eapply IH; eauto.
Qed.
Lemma asks_records : forall ls env tools made rs env' seen, asks sg out listing env tools made ls = Some (rs, env') ->
  (forall z, In z seen -> (exists m, z = (2 * Z.of_nat m + 2)%Z) \/ exists m, m < made /\ z = (2 * Z.of_nat m + 1)%Z) -> own_records seen rs.
Proof.
  induction ls as [|[x o flags|x o t g|x i|x g] ls IH]; intros env tools made rs env' seen E Sn; cbn [asks] in E.
  - injection E as <- <-. exact I.
  - eapply IH; eauto.
  - destruct (tool_means env (op_class o) tools t) as [[[d flags] tools']|]; [|discriminate]. destruct (given_means listing env g) as [srcs|] eqn:G; [|discriminate].
    destruct (result_of sg out o srcs) as [r|] eqn:R; [|discriminate]. destruct (asks sg out listing ((x, r) :: env) tools' (S made) ls) as [[rs' env1]|] eqn:W; [|discriminate]. injection E as <- <-.
    destruct o as [|k]; cbn [request_for own_records].
    + split.
      * intros id k fl ss I. destruct (asks_link_ids _ _ _ _ _ _ _ _ _ _ W I) as (m & _ & ->). lia.
      * eapply IH; eauto. intros z [<-|I]; [left; eauto|]. destruct (Sn z I) as [Q|(m & L & Q)]; [now left|right; exists m; split; [lia|exact Q]].
    + split; [|split].
      * intro I. destruct (Sn _ I) as [(m & Q)|(m & L & Q)]; lia.
      * intros cc fl ss I. destruct (asks_cc_ids _ _ _ _ _ _ _ _ _ W I) as (m & ->). lia.
      * eapply IH; eauto. intros z [<-|I]; [right; exists made; split; [lia|reflexivity]|]. destruct (Sn z I) as [Q|(m & L & Q)]; [now left|right; exists m; split; [lia|exact Q]].
  - destruct (one_means env i) as [w|]; [|discriminate]. eapply IH; eauto.
  - destruct (given_means listing env g) as [w|]; [|discriminate]. eapply IH; eauto.
Qed.

Theorem script_requests_good srcs links r p : recipe_means sg out listing r = Some p -> (forall q, In q (to_build p) -> good_req srcs links q) -> links_sources listing source (recipe_lines r) -> made_once sg out (to_build p) ->
  good_requests sg out inst_area srcs links (to_build p).
Proof.
  intros E G T N. assert (exists env, asks sg out listing [] 0 0 (recipe_lines r) = Some (to_build p, env)) as (env & As).
  { unfold recipe_means in E. destruct (asks sg out listing [] 0 0 (recipe_lines r)) as [[rs env]|]; [|discriminate]. destruct (match recipe_install r with None => _ | _ => _ end); [|discriminate].
    destruct (match recipe_run r with None => _ | _ => _ end); [|discriminate]. injection E as <-. eauto. }
  split; [exact G| |].
  - eapply asks_in_order; eauto. intros x t Q. discriminate Q.
  - eapply asks_records; eauto. intros z [].
Qed.
End Order.

(** ** Builds of scripts *)
Section Builds.
Variables (sg : bool) (out : bytes) (listing : bytes -> option (list bytes)) (pow : Z -> Z -> option Z) (exists_ : bytes -> bool) (texts : bytes -> file).

Lemma setup_more n n' prefix ss : n <= n' -> setup sg out listing pow exists_ texts n prefix ss <> NoFuel ->
  setup sg out listing pow exists_ texts n' prefix ss = setup sg out listing pow exists_ texts n prefix ss.
Proof.
  intros L N. unfold setup in *. rewrite (run_more _ n n'); [reflexivity|exact L|]. intro Q. rewrite Q in N. now apply N.
Qed.

Lemma script_build_is E prefix r p w rv w' : nul_free out -> finds_bob exists_ texts prefix -> distinct_names (recipe_lines r) -> plain_texts r -> recipe_means sg out listing r = Some p ->
  (script_build sg out listing pow exists_ texts E prefix (script r) w rv w' <-> build sg out E (to_build p) w rv w').
Proof.
  intros No F Nd Pt As. destruct (script_builds sg out listing pow exists_ texts prefix r p No F Nd Pt As) as (N & X). unfold script_build, build. split.
  - intros (n & s0 & bs & s' & S0 & P0 & R). destruct (X (n + N) ltac:(lia)) as (s & S1 & _ & P & _). rewrite (setup_more n (n + N)) in S1 by (lia || congruence). rewrite S1 in S0.
    assert (s0 = s) by congruence. subst s0. rewrite P in P0. exists bs. split; [congruence|exact R].
  - intros (bs & Q & R). destruct (X N ltac:(lia)) as (s & S1 & _ & P & _). exists N, s, bs, s. split; [exact S1|]. split; [now rewrite P, Q|exact R].
Qed.
End Builds.

(** ** Sound scripts *)
Section SoundScript.
Variables (sg : bool) (out : bytes) (listing : bytes -> option (list bytes)) (pow : Z -> Z -> option Z) (exists_ : bytes -> bool) (texts : bytes -> file).
Variables (prefix : bytes) (inst_area srcs : bytes -> Prop) (links : link_kind -> list bytes -> Prop).
Variables (r : recipe) (p : purpose).
Hypothesis SO : sound_script sg out listing exists_ texts prefix inst_area srcs links r p.

Lemma sound_requests : good_requests sg out inst_area srcs links (to_build p).
Proof. destruct SO. eapply script_requests_good; eauto. Qed.
Lemma sound_build E w rv w' : script_build sg out listing pow exists_ texts E prefix (script r) w rv w' <-> build sg out E (to_build p) w rv w'.
Proof. destruct SO. now apply script_build_is. Qed.
End SoundScript.

(** ** Installing and running *)
Lemma found_strings l : all_strings (map (fun kv : bytes * bytes => (Some (fst kv), Some (snd kv))) l) = Some l.
Proof. induction l as [|[k v] l IH]; cbn; [reflexivity|]. now rewrite IH. Qed.
Lemma found_map st m prefix : setup_install_map st (Some (found_install m)) prefix =
  (true, match m with Some (_ :: _) => {| i_map := m; i_prefix := prefix |} | _ => {| i_map := None; i_prefix := i_prefix st |} end).
Proof. destruct m as [[|kv l]|]; try reflexivity. pose proof (found_strings (kv :: l)) as F. cbn in F |- *. now rewrite F. Qed.
Lemma found_args l : Forall nul_free l -> run_args (map Some l) = Some l.
Proof. induction 1 as [|x l N F IH]; cbn; [reflexivity|]. rewrite IH. cbn. now rewrite cstr_nul_free. Qed.

Lemma plain_more env x t : plain_env env -> match t with ATool _ _ _ => True | Strings l => Forall nul_free l | AString w => nul_free w end -> plain_env ((x, t) :: env).
Proof. intros P Q y u E. cbn in E. destruct (bytes_eqb x y); [injection E as <-; exact Q|exact (P y u E)]. Qed.
Lemma asks_plain sg out listing : nul_free out -> forall ls env tools made rs env', asks sg out listing env tools made ls = Some (rs, env') -> plain_env env -> Forall nul_free (flat_map line_texts ls) -> plain_env env'.
Proof.
  intros No. induction ls as [|[x o flags|x o t g|x i|x g] ls IH]; intros env tools made rs env' E P T; cbn [asks flat_map line_texts] in *.
  - now injection E as <- <-.
  - eapply IH; [exact E|now apply plain_more|exact T].
  - apply Forall_app in T as (T1 & T2). destruct (tool_means env (op_class o) tools t) as [[[d flags] tools']|]; [|discriminate]. destruct (given_means listing env g) as [srcs|] eqn:G; [|discriminate].
    destruct (result_of sg out o srcs) as [r|] eqn:R; [|discriminate]. destruct (asks sg out listing ((x, r) :: env) tools' (S made) ls) as [[rs' env1]|] eqn:W; [|discriminate]. injection E as <- <-.
    eapply IH; [exact W| |exact T2]. apply plain_more; [exact P|]. pose proof (given_plain listing _ P _ _ G T1) as Ps. destruct o as [|k]; cbn in R.
    + destruct (all (object sg out) srcs) as [cs|] eqn:A; [|discriminate]. cbn in R. injection R as <-. apply all_forall2 in A. clear - A Ps No.
      induction A as [|s c ss cs Q F IH]; constructor; inversion Ps; subst; [eapply object_nul_free; [exact No| |apply object_is; exact Q]; assumption|auto].
    + injection R as <-. now apply product_nul_free.
  - apply Forall_app in T as (T1 & T2). destruct (one_means env i) as [w|] eqn:G; [|discriminate]. eapply IH; [exact E| |exact T2]. apply plain_more; [exact P|]. eapply one_plain; eassumption.
  - apply Forall_app in T as (T1 & T2). destruct (given_means listing env g) as [w|] eqn:G; [|discriminate]. eapply IH; [exact E| |exact T2]. apply plain_more; [exact P|]. eapply given_plain; eassumption.
Qed.
Lemma run_plain sg out listing r p : nul_free out -> plain_texts r -> recipe_means sg out listing r = Some p -> Forall nul_free (to_run p).
Proof.
  intros No Pt E. unfold recipe_means in E. destruct (asks sg out listing [] 0 0 (recipe_lines r)) as [[rs env]|] eqn:A; [|discriminate].
  destruct (match recipe_install r with None => _ | _ => _ end); [|discriminate].
  unfold plain_texts, recipe_texts in Pt. apply Forall_app in Pt as (P1 & P2). apply Forall_app in P2 as (_ & P2).
  destruct (recipe_run r) as [g|]; [|now injection E as <-; constructor].
  destruct (given_means listing env g) as [l|] eqn:G; [|discriminate]. injection E as <-. cbn. eapply given_plain; [|exact G|exact P2].
  eapply asks_plain; [exact No|exact A| |exact P1]. intros x t Q. discriminate Q.
Qed.

Lemma argv_added : forall argv args, cmd_add_argv args argv = args ++ filter (fun a => negb (bytes_eqb a (lit "--"))) argv.
Proof.
  induction argv as [|a argv IH]; intros args; cbn [cmd_add_argv filter]; [now rewrite app_nil_r|]. destruct (bytes_eqb a (lit "--")); cbn [negb]; rewrite IH; [reflexivity|].
  unfold cmd_add. now rewrite <- app_assoc.
Qed.
Lemma recipe_runs sg out listing r p S e argv : nul_free out -> plain_texts r -> recipe_means sg out listing r = Some p -> s_run S = found_run (to_run p) ->
  bob_run S e argv = match to_run p ++ filter (fun a => negb (bytes_eqb a (lit "--"))) argv with [] => RValue 0 | args => exec_inplace S e args end.
Proof.
  intros No Pt E R. unfold bob_run. rewrite R. unfold found_run. rewrite (found_args _ (run_plain _ _ _ _ _ No Pt E)). now rewrite argv_added.
Qed.
