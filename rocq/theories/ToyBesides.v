(** * The toy project with tools that look at more than the files they are told about.

    The compiler is a file; its content ends up in every object. [a.c] includes [inc/a.h] if that exists, and
    [a.h] otherwise. The linker adds a library that the script doesn't mention as an input. *)

From Coq Require Import ZArith Ascii String Lia Bool List.
From Verif Require Import Base FileSys Frugal Deps Log Cookie CookieProofs Pool SpecPool Build SpecFiles SpecBuild StepProofs SpecHistory HistoryProofs Plan SpecPlan PlanProofs BuildTheorems Drive Toy SpecBesides.
Import ListNotations.
Local Open Scope nat_scope.

Definition the_cc := lit "/usr/bin/cc".
Definition x_h := lit "inc/a.h".
Definition libm := lit "/usr/lib/libm.a".

Definition dep_x := lit ": a.c inc/a.h" ++ [NL].

Definition wide_deps (fl : list bytes) (s : bytes) (f : fs) : option bytes :=
  match content f the_cc with
  | None => None
  | Some _ =>
    match content f x_h with
    | Some _ => if bytes_eqb s a_c then match content f a_c with Some _ => Some dep_x | None => None end else toy_deps fl s f
    | None => toy_deps fl s f
    end
  end.

Definition wide_cc (fl : list bytes) (s : bytes) (f : fs) : tool_result :=
  match content f the_cc with
  | None => ToolFail (lit "no compiler") None
  | Some v => toy_cc (v :: fl) s (match content f x_h with Some _ => fs_set f a_h (f x_h) | None => f end)
  end.

Definition wide_ld (k : link_kind) (l : option bytes) (o : bytes) (ss fl : list bytes) (f : fs) : tool_result :=
  match content f libm with
  | None => ToolFail (lit "cannot find -lm") None
  | Some m => match toy_ld k l o ss fl f with ToolOk t c => ToolOk t (c ++ m) | r => r end
  end.

Definition wide : env := Env 2 (fun _ => true) secs wide_deps wide_cc wide_ld (fun _ _ f => (true, f)) None.

Definition outside (p : bytes) : bool := bytes_eqb p the_cc || bytes_eqb p x_h || bytes_eqb p libm.
Definition found : fs := tree [(the_cc, lit "9", 0%Z); (libm, lit "m", 0%Z)].

Lemma src_cc : source (product_dir toy_out) nothing_installed the_cc.
Proof. apply toy_source. intros r. discriminate. Qed.
Lemma src_x : source (product_dir toy_out) nothing_installed x_h.
Proof. apply toy_source. intros r. discriminate. Qed.
Lemma src_m : source (product_dir toy_out) nothing_installed libm.
Proof. apply toy_source. intros r. discriminate. Qed.

Lemma outside_source p : outside p = true -> source (product_dir toy_out) nothing_installed p.
Proof.
  unfold outside. intros H. apply orb_prop in H. destruct H as [H|H]; [apply orb_prop in H; destruct H as [H|H]|]; apply bytes_eqb_eq in H; subst p;
    [apply src_cc|apply src_x|apply src_m].
Qed.

Section Found.
Variable f : fs.
Hypothesis A : as_found outside found f.
Lemma found_cc : content f the_cc = Some (lit "9").
Proof. unfold content. rewrite (A the_cc) by reflexivity. reflexivity. Qed.
Lemma found_x : content f x_h = None.
Proof. unfold content. rewrite (A x_h) by reflexivity. reflexivity. Qed.
Lemma found_m : content f libm = Some (lit "m").
Proof. unfold content. rewrite (A libm) by reflexivity. reflexivity. Qed.

Definition nine (it : item) : item := Item (lit "9" :: it_flags it) (it_src it) (it_out it).
Lemma found_deps it : deps_on wide it f = deps_on (toy 2 secs) (nine it) f.
Proof. unfold deps_on. cbn [cc_deps wide toy]. unfold wide_deps. rewrite found_cc, found_x. reflexivity. Qed.
Lemma found_obj it : cc_on wide it f = cc_on (toy 2 secs) (nine it) f.
Proof. unfold cc_on. cbn [cc_obj wide toy]. unfold wide_cc. rewrite found_cc, found_x. reflexivity. Qed.
Lemma found_ld r : ld_on wide r f = match ld_on (toy 2 secs) r f with ToolOk t c => ToolOk t (c ++ lit "m") | x => x end.
Proof. unfold ld_on. cbn [ld wide toy]. unfold wide_ld. rewrite found_m. reflexivity. Qed.
End Found.

Lemma inside_listed n clk it f o d : deps_on (toy n clk) it f = Some o -> In d (listed o) -> outside d = false.
Proof.
  unfold deps_on. cbn [cc_deps toy]. unfold toy_deps. intros D Hd. destruct (bytes_eqb (it_src it) a_c).
  - destruct (content f a_c); [|discriminate]. destruct (content f a_h); [|discriminate]. assert (o = dep_a) by congruence. subst o.
    rewrite listed_a in Hd. destruct Hd as [<-|[<-|[]]]; reflexivity.
  - destruct (bytes_eqb (it_src it) b_c); [|discriminate]. destruct (content f b_c); [|discriminate]. assert (o = dep_b) by congruence. subst o.
    rewrite listed_b in Hd. destruct Hd as [<-|[]]; reflexivity.
Qed.

Lemma wide_inside : setting_inside true toy_out wide nothing_installed toy_srcs toy_links outside found.
Proof.
  pose proof (toy_honest 2 secs) as HT. constructor.
  - constructor; cbn; auto.
    + intros fl s f f' H. unfold wide_deps, toy_deps, content.
      rewrite (H the_cc src_cc), (H x_h src_x), (H a_c src_a), (H a_h src_h), (H b_c src_b). reflexivity.
    + intros fl s f f' H. unfold wide_cc, content. rewrite (H the_cc src_cc), (H x_h src_x).
      destruct (f' the_cc); try reflexivity. apply (ge_obj _ _ _ (toy_good_env 2 secs ltac:(auto))). intros p Sp.
      destruct (f' x_h); auto. unfold fs_set. destruct (bytes_eqb p a_h); auto.
  - constructor.
    + exact outside_source.
    + intros it f f' o A A' D H. rewrite found_deps in * by auto. rewrite !found_obj by auto. apply (ht_listed _ _ _ HT (nine it)); auto.
    + intros it f text obj A H. rewrite found_deps by auto. rewrite found_obj in H by auto. eapply (ht_deps _ _ _ HT); eauto.
    + intros it f o d A D Hd. rewrite found_deps in D by auto. destruct (ht_sources _ _ _ HT _ _ _ _ D Hd) as (S1 & S2). split; auto. split; auto.
      eapply inside_listed; eauto.
    + intros it f text c A. rewrite found_obj by auto. apply (ht_clean _ _ _ HT).
    + intros r f text c A. rewrite found_ld by auto. pose proof (ht_clean_ld _ _ _ HT r f text c) as K.
      destruct (ld_on (toy 2 secs) r f); [discriminate|exact K].
    + intros r f f' A A' H. rewrite !found_ld by auto. now rewrite (ht_ld _ _ _ HT r f f' H).
  - apply secs_monotone.
  - destruct (toy_named 2 secs) as [W1 W2 W3 W4 W5]. constructor; auto.
Qed.

Definition wstart : world := World (tree [(a_c, lit "A", 0%Z); (a_h, lit "h", 0%Z); (b_c, lit "B", 0%Z); (the_cc, lit "9", 0%Z); (libm, lit "m", 0%Z)]) 1 [] [].

Lemma start_found : as_found outside found (files wstart).
Proof.
  intros p H. unfold outside in H. apply orb_prop in H. destruct H as [H|H]; [apply orb_prop in H; destruct H as [H|H]|]; apply bytes_eqb_eq in H; subst p; reflexivity.
Qed.

Lemma wide_second w : (match files w exe with File _ t => Z.ltb t (Z.of_nat (tick w)) | _ => true end) = true ->
  next_second true toy_out wide toy_links w.
Proof. exact (exe_second 2 w). Qed.

(** One edit. *)
Lemma edit_evolves w p c t k : source (product_dir toy_out) nothing_installed p -> (Z.of_nat (tick w) < t)%Z ->
  evolves wide (product_dir toy_out) nothing_installed (named_item true toy_out toy_srcs) (named_link true toy_out toy_links) w (wait k (edit p c t w)).
Proof.
  intros Sp T. apply ev_edit; cbn; [lia| |].
  - intros q A. apply fs_set_diff. intros ->. apply (proj1 Sp). exact A.
  - intros q _. unfold fs_set, modified_at, stat. destruct (bytes_eqb q p) eqn:Eq; auto.
    right. intros t' [= <-]. unfold secs. lia.
Qed.

(** One build. *)
Lemma build_evolves fl w : Forall plain fl -> rv_of (after wide fl w) = Some 0%Z -> next_second true toy_out wide toy_links w ->
  evolves wide (product_dir toy_out) nothing_installed (named_item true toy_out toy_srcs) (named_link true toy_out toy_links) w (world_of (after wide fl w)).
Proof.
  intros Pl H L. destruct (after_build wide fl w 0 H) as (bs' & P' & R).
  destruct (plan_wanted true toy_out wide nothing_installed toy_srcs toy_links (si_names _ _ _ _ _ _ _ _ wide_inside) _ (script_good fl Pl)) as (bs & P & GS & _).
  assert (bs' = bs) by congruence. subst bs'. apply (ev_build _ _ _ _ _ bs); auto.
  intros r c t (Lk & Eo & _) F. rewrite Eo in F. eapply L; eauto.
Qed.
