(** * A small concrete project, used to show that hypotheses can be met and that stronger claims fail.

    Two sources, [a.c] (which includes [a.h]) and [b.c]; a compiler whose object is its flags followed by the
    source text, and which fails on a source starting with an exclamation mark; a linker that concatenates. *)

From Coq Require Import ZArith Ascii String Lia Bool List.
From Verif Require Import Base FileSys Frugal Deps Log Cookie CookieProofs Pool SpecPool Build SpecFiles SpecBuild StepProofs SpecHistory Plan SpecPlan Drive.
Import ListNotations.
Local Open Scope nat_scope.

Definition toy_out : bytes := lit ".bob".
Definition a_c := lit "a.c".
Definition a_h := lit "a.h".
Definition b_c := lit "b.c".

Definition content (f : fs) (p : bytes) : option bytes := match f p with File c _ => Some c | _ => None end.

Definition dep_a := lit ": a.c a.h" ++ [NL].
Definition dep_b := lit ": b.c" ++ [NL].

Definition toy_deps (_ : list bytes) (s : bytes) (f : fs) : option bytes :=
  if bytes_eqb s a_c then
    match content f a_c, content f a_h with Some _, Some _ => Some dep_a | _, _ => None end
  else if bytes_eqb s b_c then match content f b_c with Some _ => Some dep_b | None => None end
  else None.

Definition starts_bad (c : bytes) : bool := match c with x :: _ => byte_eqb x "!"%char | [] => false end.

Definition toy_cc (fl : list bytes) (s : bytes) (f : fs) : tool_result :=
  if bytes_eqb s a_c then
    match content f a_c, content f a_h with
    | Some c, Some h => if starts_bad c then ToolFail (lit "error") None else ToolOk [] (concat fl ++ lit "[" ++ c ++ h ++ lit "]")
    | _, _ => ToolFail (lit "no such file") None
    end
  else if bytes_eqb s b_c then
    match content f b_c with
    | Some c => if starts_bad c then ToolFail (lit "error") None else ToolOk (lit "warning") (concat fl ++ lit "[" ++ c ++ lit "]")
    | None => ToolFail (lit "no such file") None
    end
  else ToolFail (lit "not for me") None.

Fixpoint join (f : fs) (ps : list bytes) : option bytes :=
  match ps with
  | [] => Some []
  | p :: ps' => match content f p, join f ps' with Some c, Some r => Some (c ++ r) | _, _ => None end
  end.

Definition toy_ld (k : link_kind) (_ : option bytes) (_ : bytes) (srcs fl : list bytes) (f : fs) : tool_result :=
  match join f srcs with Some c => ToolOk [] (concat fl ++ c) | None => ToolFail (lit "cannot find input") None end.

(** [n] worker threads, any clock. *)
Definition toy (n : nat) (clk : nat -> Z) : env :=
  Env n (fun _ => true) clk toy_deps toy_cc toy_ld (fun _ _ f => (true, f)) None.

Definition nothing_installed : bytes -> Prop := fun _ => False.

Lemma toy_source p : (forall r, p <> lit ".bob/bob/" ++ r) -> source (product_dir toy_out) nothing_installed p.
Proof. intros H. split; [|intros []]. intros (name & ->). apply (H name). reflexivity. Qed.

Lemma src_a : source (product_dir toy_out) nothing_installed a_c.
Proof. apply toy_source. intros r. discriminate. Qed.
Lemma src_h : source (product_dir toy_out) nothing_installed a_h.
Proof. apply toy_source. intros r. discriminate. Qed.
Lemma src_b : source (product_dir toy_out) nothing_installed b_c.
Proof. apply toy_source. intros r. discriminate. Qed.

Lemma toy_good_env n clk : 1 <= n -> good_env (toy n clk) (product_dir toy_out) nothing_installed.
Proof.
  intros N. constructor; cbn; auto.
  - intros fl s f f' H. unfold toy_deps, content.
    rewrite (H a_c src_a), (H a_h src_h), (H b_c src_b). reflexivity.
  - intros fl s f f' H. unfold toy_cc, content.
    rewrite (H a_c src_a), (H a_h src_h), (H b_c src_b). reflexivity.
Qed.

Lemma content_same f f' p : same_content (f p) (f' p) -> content f p = content f' p.
Proof. unfold content, same_content. destruct (f p), (f' p); intros H; subst; auto; contradiction. Qed.

Lemma content_time f p c : content f p = Some c -> exists t, modified_at f p t.
Proof. unfold content, modified_at, stat. destruct (f p); try discriminate. eauto. Qed.

Lemma listed_a : listed dep_a = [a_c; a_h].
Proof. reflexivity. Qed.
Lemma listed_b : listed dep_b = [b_c].
Proof. reflexivity. Qed.

Lemma toy_honest n clk : honest_tools (toy n clk) (product_dir toy_out) nothing_installed.
Proof.
  constructor.
  - intros it f f' o D H. unfold deps_on, cc_on in *. cbn [cc_deps cc_obj toy] in *. unfold toy_deps, toy_cc in *.
    destruct (bytes_eqb (it_src it) a_c).
    + destruct (content f a_c) eqn:Ca; [|discriminate]. destruct (content f a_h) eqn:Ch; [|discriminate]. assert (o = dep_a) by congruence. subst o.
      rewrite listed_a in H.
      rewrite <- (content_same f f' a_c), <- (content_same f f' a_h), Ca, Ch; [auto|apply H; cbn; auto|apply H; cbn; auto].
    + destruct (bytes_eqb (it_src it) b_c); [|discriminate]. destruct (content f b_c) eqn:Cb; [|discriminate]. assert (o = dep_b) by congruence. subst o.
      rewrite listed_b in H. rewrite <- (content_same f f' b_c), Cb; [auto|apply H; cbn; auto].
  - intros it f text obj H. unfold deps_on, cc_on in *. cbn [cc_deps cc_obj toy] in *. unfold toy_deps, toy_cc in *.
    destruct (bytes_eqb (it_src it) a_c).
    + destruct (content f a_c); [|discriminate]. destruct (content f a_h); [|discriminate]. eauto.
    + destruct (bytes_eqb (it_src it) b_c); [|discriminate]. destruct (content f b_c); [|discriminate]. eauto.
  - intros it f o d D Hd. unfold deps_on in *. cbn [cc_deps toy] in *. unfold toy_deps in *.
    destruct (bytes_eqb (it_src it) a_c).
    + destruct (content f a_c) eqn:Ca; [|discriminate]. destruct (content f a_h) eqn:Ch; [|discriminate]. assert (o = dep_a) by congruence. subst o.
      rewrite listed_a in Hd. destruct Hd as [<-|[<-|[]]]; split; try apply src_a; try apply src_h; eapply content_time; eauto.
    + destruct (bytes_eqb (it_src it) b_c); [|discriminate]. destruct (content f b_c) eqn:Cb; [|discriminate]. assert (o = dep_b) by congruence. subst o.
      rewrite listed_b in Hd. destruct Hd as [<-|[]]. split; [apply src_b|]. eapply content_time; eauto.
  - intros it f text c. unfold cc_on. cbn [cc_obj toy]. unfold toy_cc.
    destruct (bytes_eqb (it_src it) a_c).
    + destruct (content f a_c) as [x|]; [|discriminate]. destruct (content f a_h); [|discriminate]. destruct (starts_bad x); discriminate.
    + destruct (bytes_eqb (it_src it) b_c); [|discriminate]. destruct (content f b_c) as [x|]; [|discriminate]. destruct (starts_bad x); discriminate.
  - intros r f text c. unfold ld_on. cbn [ld toy]. unfold toy_ld. destruct (join f (lk_srcs r)); discriminate.
  - intros r f f' H. unfold ld_on. cbn [ld toy]. unfold toy_ld.
    assert (J : join f (lk_srcs r) = join f' (lk_srcs r)); [|now rewrite J].
    induction (lk_srcs r) as [|p ps IH]; cbn; auto. rewrite (content_same f f' p) by (apply H; cbn; auto).
    rewrite IH; auto. intros q Hq. apply H. cbn; auto.
Qed.

Lemma toy_inputs n clk : inputs_needed (toy n clk).
Proof.
  constructor.
  - intros it f text obj H. unfold cc_on in H. cbn [cc_obj toy] in H. unfold toy_cc in H.
    destruct (bytes_eqb (it_src it) a_c) eqn:Ea.
    + apply bytes_eqb_eq in Ea. destruct (content f a_c) eqn:C; [|discriminate]. rewrite Ea. eapply content_time; eauto.
    + destruct (bytes_eqb (it_src it) b_c) eqn:Eb; [|discriminate]. apply bytes_eqb_eq in Eb.
      destruct (content f b_c) eqn:C; [|discriminate]. rewrite Eb. eapply content_time; eauto.
  - intros r f text c s H. unfold ld_on in H. cbn [ld toy] in H. unfold toy_ld in H.
    destruct (join f (lk_srcs r)) as [j|] eqn:J; [|discriminate]. clear H. revert j J.
    induction (lk_srcs r) as [|p ps IH]; intros j J; [intros []|]. cbn in J.
    destruct (content f p) eqn:C; [|discriminate]. destruct (join f ps) eqn:J'; [|discriminate].
    intros [<-|H]; [eapply content_time; eauto|eauto].
Qed.

(** Names. *)
Definition obj_of (s : bytes) : bytes := match gen_cookie true toy_out s (lit "o") with Ok c => c | _ => [] end.
Definition a_o := Eval vm_compute in obj_of a_c.
Definition b_o := Eval vm_compute in obj_of b_c.
Definition exe := Eval vm_compute in link_cookie true toy_out Link [a_o; b_o].

Lemma a_o_ok : object_of true toy_out a_c a_o. Proof. vm_compute. reflexivity. Qed.
Lemma b_o_ok : object_of true toy_out b_c b_o. Proof. vm_compute. reflexivity. Qed.
Lemma exe_ok : link_cookie true toy_out Link [a_o; b_o] = exe. Proof. vm_compute. reflexivity. Qed.

Definition toy_srcs (s : bytes) : Prop := s = a_c \/ s = b_c.
Definition toy_links (k : link_kind) (l : list bytes) : Prop := k = Link /\ l = [a_o; b_o].

Lemma toy_named n clk : well_named true toy_out (toy n clk) nothing_installed toy_srcs toy_links.
Proof.
  constructor.
  - intros s [-> | ->]; (split; [apply not_in_lit_dec; reflexivity|]); [apply src_a|apply src_b].
  - pose proof a_o_ok. pose proof b_o_ok. assert (a_o <> b_o) by (intros X; discriminate X). unfold object_of in *.
    intros s s' c [-> | ->] [-> | ->] H3 H4; auto; congruence.
  - intros k l l' [_ ->] [_ ->]. auto.
  - intros k l s [-> ->] Hs. rewrite exe_ok. split.
    + destruct Hs as [<-|[<-|[]]]; discriminate.
    + right. left. destruct Hs as [<-|[<-|[]]]; [exists a_c|exists b_c]; (split; [unfold toy_srcs; auto|]); [apply a_o_ok|apply b_o_ok].
  - reflexivity.
Qed.

(** The script: compile both sources, link the objects. *)
Definition script (fl : list bytes) : list req :=
  [RCompile 1 fl [a_c; b_c]; RLink 2 Link [] [a_o; b_o]].

Lemma script_good fl : Forall plain fl -> good_requests true toy_out nothing_installed toy_srcs toy_links (script fl).
Proof.
  intros Pl. constructor.
  - intros r [<-|[<-|[]]]; cbn.
    + split; auto. unfold toy_srcs. intros s [<-|[<-|[]]]; auto.
    + repeat split; auto.
  - econstructor.
    + constructor. constructor; [apply a_o_ok|]. constructor; [apply b_o_ok|constructor].
    + constructor; [intros [X|[]]; discriminate X|]. constructor; [intros []|constructor].
    + intros c _ [].
    + constructor.
      * intros s [<-|[<-|[]]]; right; cbn; auto.
      * rewrite exe_ok. intros [X|[X|[]]]; discriminate X.
      * constructor.
  - cbn. repeat split; auto; try (intros; contradiction).
    + intros id k fl' ss [X|[]]. injection X as <- _ _ _. discriminate.
    + intros [X|[]]. discriminate.
Qed.

Definition plan_of (fl : list bytes) : list bstep :=
  [SCompile [Item fl a_c a_o; Item fl b_c b_o]; SLink (LinkReq Link [] [a_o; b_o] exe)].

Lemma script_plan fl : plan true toy_out (script fl) = Ok (plan_of fl).
Proof. vm_compute. reflexivity. Qed.

(** Files. *)
Definition tree (l : list (bytes * bytes * Z)) : fs :=
  fold_right (fun x f => fs_set f (fst (fst x)) (File (snd (fst x)) (snd x))) (fun _ => Absent) l.

Definition start : world := World (tree [(a_c, lit "A", 0%Z); (a_h, lit "h", 0%Z); (b_c, lit "B", 0%Z)]) 1 [] [].

Definition edit (p c : bytes) (t : Z) (w : world) : world :=
  World (fs_set (files w) p (File c t)) (tick w) (ran w) (shown w).
Definition erase (p : bytes) (w : world) : world :=
  World (fs_set (files w) p Absent) (tick w) (ran w) (shown w).
Definition wait (n : nat) (w : world) : world := World (files w) (n + tick w) (ran w) (shown w).

Definition after (E : env) (fl : list bytes) (w : world) : option (Z * world) := build_run E 400 [0; 1; 2] (plan_of fl) w.
Definition world_of (r : option (Z * world)) : world := match r with Some (_, w) => w | None => start end.
Definition rv_of (r : option (Z * world)) : option Z := match r with Some (rv, _) => Some rv | None => None end.

Lemma after_build E fl w rv : rv_of (after E fl w) = Some rv ->
  build true toy_out E (script fl) w rv (world_of (after E fl w)).
Proof.
  intros H. exists (plan_of fl). split; [apply script_plan|]. unfold after in *. destruct (build_run _ _ _ _ _) as [[r w']|] eqn:B; [|discriminate].
  cbn [rv_of world_of] in *. assert (r = rv) by congruence. subst r. exact (build_run_sound _ _ _ _ _ _ _ B).
Qed.

(** One second per action. *)
Definition secs : nat -> Z := Z.of_nat.
Lemma secs_monotone : monotone secs.
Proof. intros i j H. unfold secs. lia. Qed.

(** ** The project meets all assumptions. *)

Lemma toy_setting n clk : 1 <= n -> monotone clk -> setting true toy_out (toy n clk) nothing_installed toy_srcs toy_links.
Proof.
  intros N M. constructor; [now apply toy_good_env|apply toy_honest|exact M|apply toy_named].
Qed.

Notation toy_past n := (past true toy_out (toy n secs) nothing_installed toy_srcs toy_links).

Lemma past_start n : toy_past n start start.
Proof. constructor. intros p (name & ->). reflexivity. Qed.

Lemma past_edit n w0 w p c t k : toy_past n w0 w -> source (product_dir toy_out) nothing_installed p -> (Z.of_nat (tick w) < t)%Z ->
  toy_past n w0 (wait k (edit p c t w)).
Proof.
  intros H Sp T. eapply h_step; [exact H|]. apply ev_edit; cbn; [lia| |].
  - intros q A. apply fs_set_diff. intros ->. apply (proj1 Sp). exact A.
  - intros q _. unfold fs_set, modified_at, stat. destruct (bytes_eqb q p) eqn:Eq; auto.
    right. intros t' [= <-]. unfold secs. lia.
Qed.

Lemma exe_second n w : (match files w exe with File _ t => Z.ltb t (Z.of_nat (tick w)) | _ => true end) = true ->
  next_second true toy_out (toy n secs) toy_links w.
Proof.
  intros H k l c t [-> ->]. rewrite exe_ok. intros F. rewrite F in H. cbn. unfold secs. lia.
Qed.

Lemma later_of w n : next_second true toy_out (toy n secs) toy_links w -> later (toy n secs) (named_link true toy_out toy_links) w.
Proof. intros H r c t (L & Eo & _) F. rewrite Eo in F. eapply H; eauto. Qed.

(** ** A second project: [a.c] includes [a.h] if it starts with a hash sign. *)

Definition dep_self := lit ": a.c" ++ [NL].
Definition hash_sign (c : bytes) : bool := match c with x :: _ => byte_eqb x "#"%char | [] => false end.

Definition inc_deps (_ : list bytes) (_ : bytes) (f : fs) : option bytes :=
  match content f a_c with
  | Some c => if hash_sign c then match content f a_h with Some _ => Some dep_a | None => None end else Some dep_self
  | None => None
  end.
Definition inc_cc (_ : list bytes) (_ : bytes) (f : fs) : tool_result :=
  match content f a_c with
  | Some c => if hash_sign c then match content f a_h with Some h => ToolOk [] (c ++ h) | None => ToolFail (lit "no a.h") None end
              else ToolOk [] c
  | None => ToolFail (lit "no a.c") None
  end.
Definition inc : env := Env 1 (fun _ => true) secs inc_deps inc_cc toy_ld (fun _ _ f => (true, f)) None.
Definition inc_srcs (s : bytes) : Prop := s = a_c.
Definition inc_links (k : link_kind) (l : list bytes) : Prop := False.
Definition inc_script : list req := [RCompile 1 [] [a_c]].
Definition inc_plan : list bstep := [SCompile [Item [] a_c a_o]].
Definition inc_after (w : world) := build_run inc 400 [0; 1] inc_plan w.

Lemma listed_self : listed dep_self = [a_c].
Proof. reflexivity. Qed.

Lemma inc_setting : setting true toy_out inc nothing_installed inc_srcs inc_links.
Proof.
  constructor; [| |apply secs_monotone|].
  - constructor; cbn; auto.
    + intros fl s f f' H. unfold inc_deps, content. rewrite (H a_c src_a), (H a_h src_h). reflexivity.
    + intros fl s f f' H. unfold inc_cc, content. rewrite (H a_c src_a), (H a_h src_h). reflexivity.
  - constructor.
    + intros it f f' o D H. unfold deps_on, cc_on in *. cbn [cc_deps cc_obj inc] in *. unfold inc_deps, inc_cc in *.
      destruct (content f a_c) as [c|] eqn:Ca; [|discriminate]. destruct (hash_sign c) eqn:Hc.
      * destruct (content f a_h) eqn:Ch; [|discriminate]. assert (o = dep_a) by congruence. subst o. rewrite listed_a in H.
        rewrite <- (content_same f f' a_c), <- (content_same f f' a_h), Ca, Ch, Hc; [auto|apply H; cbn; auto|apply H; cbn; auto].
      * assert (o = dep_self) by congruence. subst o. rewrite listed_self in H.
        rewrite <- (content_same f f' a_c), Ca, Hc; [auto|apply H; cbn; auto].
    + intros it f text obj H. unfold deps_on, cc_on in *. cbn [cc_deps cc_obj inc] in *. unfold inc_deps, inc_cc in *.
      destruct (content f a_c) as [c|]; [|discriminate]. destruct (hash_sign c); [|eauto]. destruct (content f a_h); [eauto|discriminate].
    + intros it f o d D Hd. unfold deps_on in *. cbn [cc_deps inc] in *. unfold inc_deps in *.
      destruct (content f a_c) as [c|] eqn:Ca; [|discriminate]. destruct (hash_sign c).
      * destruct (content f a_h) eqn:Ch; [|discriminate]. assert (o = dep_a) by congruence. subst o. rewrite listed_a in Hd.
        destruct Hd as [<-|[<-|[]]]; split; try apply src_a; try apply src_h; eapply content_time; eauto.
      * assert (o = dep_self) by congruence. subst o. rewrite listed_self in Hd. destruct Hd as [<-|[]]. split; [apply src_a|]. eapply content_time; eauto.
    + intros it f text c. unfold cc_on. cbn [cc_obj inc]. unfold inc_cc. destruct (content f a_c) as [x|]; [|discriminate].
      destruct (hash_sign x); [|discriminate]. destruct (content f a_h); discriminate.
    + apply (toy_honest 1 secs).
    + apply (toy_honest 1 secs).
  - constructor.
    + intros s ->. split; [apply not_in_lit_dec; reflexivity|apply src_a].
    + intros s s' c -> ->. auto.
    + intros k l l' [].
    + intros k l s [].
    + reflexivity.
Qed.

Lemma inc_good : good_requests true toy_out nothing_installed inc_srcs inc_links inc_script.
Proof.
  constructor.
  - intros r [<-|[]]. split; [constructor|]. intros s [<-|[]]. reflexivity.
  - econstructor; [constructor; constructor; [apply a_o_ok|constructor]| | |constructor].
    + constructor; [intros []|constructor].
    + intros c _ [].
  - cbn. auto.
Qed.

Lemma inc_build w rv : rv_of (inc_after w) = Some rv -> build true toy_out inc inc_script w rv (world_of (inc_after w)).
Proof.
  intros H. exists inc_plan. split; [vm_compute; reflexivity|]. unfold inc_after in *. destruct (build_run _ _ _ _ _) as [[r w']|] eqn:B; [|discriminate].
  cbn [rv_of world_of] in *. assert (r = rv) by congruence. subst r. exact (build_run_sound _ _ _ _ _ _ _ B).
Qed.
