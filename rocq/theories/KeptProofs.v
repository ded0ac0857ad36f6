(** * What bob reads once a script has ended is still there. *)

From Coq Require Import ZArith Arith Ascii String Lia Bool List.
From Verif Require Import Base FlAst FlState FlMonad FlInterp Bob SpecBob SpecSafe SpecKept SafeInv SafeProofs Project.
Import ListNotations.
Local Open Scope nat_scope.
Local Open Scope fl_scope.

Section Kept.
Variables (g : gh) (s : st bob).
Hypothesis I : Inv g [] s.
Hypothesis K0 : K g 0 = true.
Hypothesis Alive0 : exists vs, nth_error (w_scopes (view s)) 0 = Some (vs, true).
Hypothesis Stack : nth_error (envs s) (cur_env s) = Some [0].

(** A value that is pinned or that a variable of the outermost scope has. *)
Definition safe_at (a : addr) : Prop := P g a = true \/ kept s a.

Lemma top_is vs t : top_vars s = Ret vs t -> t = s /\ nth_error (w_scopes (view s)) 0 = Some (vs, true).
Proof.
  unfold top_vars, mbind, cur_stack. rewrite Stack. cbn [rev app]. unfold get_scope. destruct (nth_error (scopes s) 0) as [c|] eqn:N; [|discriminate].
  destruct (sc_alive c) eqn:A; [|discriminate]. cbn [ret]. intro Q. injection Q as <- <-. split; [reflexivity|]. rewrite <- A. exact (map_nth_error scope_view 0 (scopes s) N).
Qed.
Lemma kept_alive a n p : nth_error (w_cells (view s)) a = Some (n, p) -> res p = true -> safe_at a -> alive (view s) p.
Proof.
  intros N R [J|[J|J]].
  - exact (Inv_live g [] s a n p I (or_intror J) N R).
  - destruct J as (vs & t & v & Q & Jv & V). apply top_is in Q as (_ & Q). apply (v_alive _ _ _ _ _ _ I a n p N R). pose proof (v_cnt _ _ _ _ _ _ I a n p N R) as C.
    assert (1 <= stored g none (view s) a); [|unfold owed in C; lia]. unfold stored. eapply Nat.le_trans; [|exact (sumi_in (in_scope g none a) (w_scopes (view s)) 0 0 _ Q)].
    cbn [Nat.add]. unfold in_scope. rewrite K0. cbn [andb snd fst]. unfold in_vars, none. apply In_nth_error in Jv as (j & Jv). eapply Nat.le_trans; [|exact (sumi_in (fun _ v => has a v) vs 0 j _ Jv)].
    unfold has. rewrite V, Nat.eqb_refl. lia.
  - refine (Inv_live g [] s a n p I (or_intror _) N R). destruct J as (x & c & Nx & [(es & V & J)|(kvs & k & v & V & J & Q)]); apply (Inv_part g [] s x c a I Nx); rewrite V; cbn [parts]; [exact J|].
    apply in_or_app. destruct Q as [-> | ->]; [left; exact (in_map fst _ _ J)|right; exact (in_map snd _ _ J)].
Qed.
Lemma reads_str a : safe_at a -> reads (str_at a) s.
Proof.
  intro J. unfold str_at. apply reads_bind; [apply reads_cell|]. intros c Q. unfold get_cell in Q. destruct (nth_error (cells s) a) as [c'|] eqn:N; [|discriminate]. injection Q as <-.
  pose proof (view_cell _ _ _ N) as W. destruct (c_val c') as [| | |b n| | | | ] eqn:V; try apply reads_ret.
  apply reads_bind; [|intros t _; apply reads_ret]. apply reads_buf. destruct (kept_alive _ _ _ W eq_refl J) as (t & B). eauto.
Qed.
Lemma reads_text a : safe_at a -> reads (text a) s.
Proof. intro J. apply reads_bind; [now apply reads_str|]. intros [t|] _; [apply reads_ret|apply reads_undef; repeat split; discriminate]. Qed.
Lemma elems_pinned a es t : elems a s = Ret es t -> forall x, In x es -> safe_at x.
Proof.
  unfold elems, mbind, get_cell. destruct (nth_error (cells s) a) as [c|] eqn:N; [|discriminate]. destruct (c_val c) eqn:V; try discriminate. cbn [ret]. intro Q. injection Q as <- _.
  intros x J. left. apply (Inv_part g [] s a c x I N). now rewrite V.
Qed.
Lemma reads_elems a : reads (elems a) s.
Proof. apply reads_bind; [apply reads_cell|]. intros c _. destruct (c_val c); try apply reads_ret; apply reads_undef; repeat split; discriminate. Qed.
Lemma reads_texts es : (forall x, In x es -> safe_at x) -> reads (mapM text es) s.
Proof. intro J. apply reads_mapM. intros x Q. now apply reads_text, J. Qed.
Lemma reads_flags d : reads (flags_at d) s.
Proof.
  destruct d as [d|]; cbn [flags_at]; [|apply reads_undef; repeat split; discriminate]. unfold reads, wp. destruct (nth_error (b_states (host s)) d) as [[a|]|]; try (repeat split; discriminate).
  apply (reads_bind (elems a) (fun es => mapM text es) s (reads_elems a)). intros es Q. apply reads_texts. exact (elems_pinned a es s Q).
Qed.
Lemma reads_items d : forall xs ys, (forall x, In x xs -> safe_at x) -> (forall y, In y ys -> safe_at y) -> reads (items d xs ys) s.
Proof.
  induction xs as [|x xs IH]; intros [|y ys] X Y; cbn [items]; try apply reads_ret; try apply reads_died.
  apply reads_bind; [apply reads_text, X; now left|]. intros tx _. apply reads_bind; [apply reads_text, Y; now left|]. intros ty _. apply reads_bind; [apply reads_flags|]. intros fl _.
  apply reads_bind; [|intros; apply reads_ret]. apply IH; intros; [apply X|apply Y]; now right.
Qed.
Lemma reads_requested i x : (forall k d v r, x = ALink k d v r -> kept s r) -> reads (requested i x) s.
Proof.
  intro J. destruct x as [d v r|k d v r]; cbn [requested].
  - apply reads_bind; [apply reads_elems|]. intros xs Qx. apply reads_bind; [apply reads_elems|]. intros ys Qy. apply reads_bind; [|intros; apply reads_ret].
    apply reads_items; [exact (elems_pinned _ _ _ Qx)|exact (elems_pinned _ _ _ Qy)].
  - apply reads_bind; [apply reads_text; right; exact (J k d v r eq_refl)|]. intros o _. apply reads_bind; [apply reads_elems|]. intros xs Qx.
    apply reads_bind; [exact (reads_texts xs (elems_pinned _ _ _ Qx))|]. intros ts _. apply reads_bind; [apply reads_flags|]. intros fl _. apply reads_ret.
Qed.
Lemma reads_requests : forall l i, (forall k d v r, In (ALink k d v r) l -> kept s r) -> reads (requests i l) s.
Proof.
  induction l as [|x l IH]; intros i J; cbn [requests]; [apply reads_ret|]. apply reads_bind; [apply reads_requested; intros k d v r ->; exact (J k d v r (or_introl eq_refl))|]. intros r _.
  apply reads_bind; [|intros; apply reads_ret]. apply IH. intros k d v r' Q. exact (J k d v r' (or_intror Q)).
Qed.
Lemma reads_steps : (forall k d v r, In (ALink k d v r) (b_asked (host s)) -> kept s r) -> reads project_steps s.
Proof. intro J. unfold project_steps. apply (reads_bind (gets host) _ s eq_refl). intros h Q. injection Q as <-. apply reads_bind; [now apply reads_requests|]. intros rs _. apply reads_ret. Qed.

Lemma reads_top : reads top_vars s.
Proof. unfold top_vars. apply reads_bind; [apply reads_stack|]. intros l _. destruct (rev l); [apply reads_undef; repeat split; discriminate|]. apply reads_bind; [apply reads_scope|]. intros; apply reads_ret. Qed.
Lemma reads_top_val x : reads (top_val x) s.
Proof.
  unfold top_val. apply reads_bind; [apply reads_top|]. intros vs _. destruct (find_top x vs) as [v|]; [|apply reads_ret]. destruct (v_val v) as [a|]; [|apply reads_undef; repeat split; discriminate].
  apply reads_bind; [apply reads_cell|]. intros; apply reads_ret.
Qed.
Lemma top_val_parts x p t : top_val x s = Ret (Some p) t -> forall a, In a (parts p) -> safe_at a.
Proof.
  intros Q a J. unfold top_val in Q. unfold mbind at 1 in Q. pose proof reads_top as W. unfold reads, wp in W. destruct (top_vars s) as [vs s1| | | |]; try discriminate. subst s1.
  destruct (find_top x vs) as [v|]; [|discriminate]. destruct (v_val v) as [b|]; [|discriminate]. unfold mbind, get_cell in Q. destruct (nth_error (cells s) b) as [c|] eqn:N; [|discriminate].
  cbn [ret] in Q. injection Q as <- _. left. exact (Inv_part g [] s b c a I N J).
Qed.
Lemma reads_install : reads install_var s.
Proof.
  unfold install_var. apply reads_bind; [apply reads_top_val|]. intros [p|] Q; [|apply reads_ret]. pose proof (top_val_parts _ _ _ Q) as J. destruct p as [| | | |es|kvs| | ]; try apply reads_ret.
  apply reads_bind; [|intros; apply reads_ret]. apply reads_mapM. intros kv Jk. cbn [parts] in J.
  apply reads_bind; [apply reads_str, J, in_or_app; left; now apply in_map|]. intros k _. apply reads_bind; [apply reads_str, J, in_or_app; right; now apply in_map|]. intros; apply reads_ret.
Qed.
Lemma reads_run : reads run_vector s.
Proof.
  unfold run_vector. apply reads_bind; [apply reads_top_val|]. intros [p|] Q; [|apply reads_ret]. pose proof (top_val_parts _ _ _ Q) as J. destruct p as [| | | |es|kvs| | ]; try apply reads_ret.
  apply reads_bind; [|intros; apply reads_ret]. apply reads_mapM. intros x Jx. now apply reads_str, J.
Qed.
End Kept.

Lemma setup_inv sg out listing pow exists_ files n prefix ss s :
  (forall p ss', files p = File ss' -> assigns_carefully ss') -> assigns_carefully ss ->
  setup sg out listing pow exists_ files n prefix ss = Ret tt s ->
  exists g, Inv g [] s /\ K g 0 = true /\ (exists vs, nth_error (w_scopes (view s)) 0 = Some (vs, true)) /\ nth_error (envs s) (cur_env s) = Some [0].
Proof.
  intros Hf Hs Q. unfold setup in Q. pose proof (exec_safe sg out listing pow exists_ files Hf n (import_dirs prefix) fresh_bob ss eq_refl Hs) as W.
  destruct (run _ n (import_dirs prefix) fresh_bob ss) as [u t|t| |u|]; try discriminate. destruct W as (g & W). exists g. pose proof W as (I & K0 & Al & St).
  pose proof (reads_top t) as R. unfold reads, wp in R. unfold mbind at 1 in Q. destruct (top_vars t) as [vs t'|t'| | |]; try discriminate. rewrite R in Q.
  destruct (existsb _ vs); [|discriminate]. injection Q as <-. exact W.
Qed.

Theorem still_there sg out listing pow exists_ files n prefix ss s :
  (forall p ss', files p = File ss' -> assigns_carefully ss') -> assigns_carefully ss ->
  setup sg out listing pow exists_ files n prefix ss = Ret tt s ->
  (forall k d v r, In (ALink k d v r) (b_asked (host s)) -> kept s r) ->
  project_steps s <> Undef UFreedStr /\ install_var s <> Undef UFreedStr /\ run_vector s <> Undef UFreedStr.
Proof.
  intros Hf Hs Q J. destruct (setup_inv _ _ _ _ _ _ _ _ _ _ Hf Hs Q) as (g & I & K0 & Al & St).
  assert (R : forall A (m : M bob A), reads m s -> m s <> Undef UFreedStr) by (intros A m W E; unfold reads, wp in W; rewrite E in W; destruct W as (W & _); now apply W).
  split; [|split]; apply R.
  - now apply (reads_steps g).
  - now apply (reads_install g).
  - now apply (reads_run g).
Qed.
