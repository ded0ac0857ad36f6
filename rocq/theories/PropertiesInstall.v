(** * C29-C31, C32 (the copying), C34: installing and owners. *)

From Coq Require Import ZArith Ascii String Lia Bool List.
From Verif Require Import Base Deps FileSys Frugal FrugalProofs Vfs Install SpecInstall VfsProofs PathProofs InstallProofs InstallAll OwnerProofs.
Import ListNotations.
Local Open Scope nat_scope.

(** ** A small project, for the examples *)

Fixpoint place (l : list (loc * node)) : vfs :=
  match l with
  | [] => fun _ => None
  | (p, n) :: rest => put (place rest) p (Some n)
  end.

Definition proj : loc := [lit "proj"].
Definition at_ (names : list bytes) : loc := rev names ++ proj.
Definition usr_local : loc := [lit "local"; lit "usr"].
Definition tree : list (loc * node) :=
  [([], VDir 1); (proj, VDir 1); ([lit "usr"], VDir 1); (usr_local, VDir 1); (lit "share" :: usr_local, VDir 1);
   (lit "inc" :: lit "share" :: usr_local, VDir 2); (lit "old.h" :: lit "inc" :: lit "share" :: usr_local, VFile (lit "old") 2);
   (at_ [lit "x.h"], VFile (lit "int x;") 5);
   (at_ [lit "inc"], VDir 4); (at_ [lit "inc"; lit "a.h"], VFile (lit "a") 4); (at_ [lit "inc"; lit "latest"], VLink (lit "a.h"));
   (at_ [lit ".bob"], VDir 1); (at_ [lit ".bob"; lit "bob"], VDir 1); (at_ [lit ".bob"; lit "bob"; lit "x.o"], VFile (lit "code") 6)].

Definition free_sys : sys :=
  {| s_cwd := proj; s_may := fun _ _ => true; s_torn := fun f _ => f; s_root := false; s_chown := fun _ => true |}.
Definition root_sys : sys :=
  {| s_cwd := proj; s_may := fun _ _ => true; s_torn := fun f _ => f; s_root := true; s_chown := fun _ => true |}.
Lemma free_tidy : tidy free_sys.
Proof. intros f l q _. reflexivity. Qed.

Definition begin (l : list (loc * node)) : vw := {| nodes := place l; chowned := []; copies := [] |}.
Definition bob_dir : loc := at_ [lit ".bob"].
Definition clock (i : nat) : Z := 10 + Z.of_nat i.
Definition a_map : list (bytes * bytes) :=
  [(lit "x.h", lit "include/deep/x.h"); (lit ".bob/bob/x.o", lit "lib/x.o"); (lit "inc", lit "share/inc")].
Definition with_map (m : list (bytes * bytes)) : install_state := {| i_map := Some m; i_prefix := Some (lit "/usr/local") |}.
Definition run_install (l : list (loc * node)) (m : list (bytes * bytes)) : res (bool * vw) :=
  install_all free_sys (unparse bob_dir) (with_map m) clock (begin l).

Lemma place_no_link q l : forallb (fun e => match snd e with VLink _ => false | _ => true end) l = true -> ~ is_link (place l q).
Proof.
  induction l as [|[p n] l IH]; cbn; [intros _ [t H]; discriminate|]. intros H. apply andb_true_iff in H as [A B].
  unfold put. destruct (loc_eqb q p); [|auto]. intros [t E]. injection E as ->. discriminate.
Qed.

Lemma place_link q l : is_link (place l q) -> exists t, In (q, VLink t) l.
Proof.
  induction l as [|[p n] l IH]; cbn; [intros [t H]; discriminate|]. unfold put. destruct (loc_eqb q p) eqn:E.
  - intros [t H]. injection H as ->. apply loc_eqb_eq in E. subst. eauto.
  - intros H. destruct (IH H) as [t I]. eauto.
Qed.

(** The places where the tree has links. *)
Definition links (l : list (loc * node)) : list loc := map fst (filter (fun e => match snd e with VLink _ => true | _ => false end) l).
Lemma place_links q l : is_link (place l q) -> In q (links l).
Proof.
  intros H. apply place_link in H as [t I]. apply in_map_iff. exists (q, VLink t). split; auto. apply filter_In. auto.
Qed.

Definition tame_check (cwd : loc) (prefix : bytes) (P : loc) (l : list (loc * node)) (es : list (bytes * bytes)) : bool :=
  match lookup cwd (hide (dests P es) (place l)) false prefix with WFound P' => loc_eqb P' P | _ => false end &&
  is_dir (place l) P &&
  forallb (fun e => negb (is_nil (names (snd e))) && forallb (fun c => negb (bytes_eqb c dot) && negb (bytes_eqb c dotdot)) (names (snd e)) &&
                    negb (slash_end (snd e)) && negb (has_byte NUL (snd e)) &&
                    forallb (fun q => negb (belowb P q && belowb q (dest P (snd e))) && negb (belowb (dest P (snd e)) q)) (links l)) es &&
  (fix pairs (ds : list loc) := match ds with [] => true | d :: rest => forallb (fun d' => negb (belowb d d') && negb (belowb d' d)) rest && pairs rest end) (dests P es).

Lemma tame_by_check cwd prefix P l es : tame_check cwd prefix P l es = true -> tame cwd prefix P (place l) es.
Proof.
  unfold tame_check. rewrite !andb_true_iff. intros [[[A B] C] D]. rewrite forallb_forall in C.
  assert (V : forall k v, In (k, v) es -> ordinary v /\ forall q, In q (links l) -> ~ (below P q /\ below q (dest P v)) /\ ~ below (dest P v) q).
  { intros k v I. specialize (C _ I). cbn [snd] in C. rewrite !andb_true_iff in C. destruct C as [[[[C1 C2] C3] C4] C5]. split.
    - repeat split.
      + intros E. rewrite E in C1. discriminate.
      + apply Forall_forall. intros c J. rewrite forallb_forall in C2. specialize (C2 c J). apply andb_true_iff in C2 as [X Y].
        apply negb_true_iff, bytes_eqb_neq in X. apply negb_true_iff, bytes_eqb_neq in Y. auto.
      + now apply negb_true_iff.
      + apply negb_true_iff in C4. now apply has_byte_not_In.
    - intros q J. rewrite forallb_forall in C5. specialize (C5 q J). apply andb_true_iff in C5 as [X Y].
      apply negb_true_iff in X, Y. split; [|now apply belowb_false].
      intros [E1 E2]. apply belowb_iff in E1, E2. rewrite E1, E2 in X. discriminate. }
  constructor.
  - destruct (lookup cwd (hide (dests P es) (place l)) false prefix) as [P'| | |]; try discriminate. f_equal. now apply loc_eqb_eq.
  - unfold is_dir in B. destruct (place l P) as [[| t|]|]; try discriminate. now exists t.
  - intros k v I. apply (V k v I).
  - intros k v q I B1 B2 L. apply place_links in L. apply (proj1 (proj2 (V k v I) q L)). auto.
  - intros k v q I B1 L. apply place_links in L. exact (proj2 (proj2 (V k v I) q L) B1).
  - revert D. generalize (dests P es). induction l0 as [|d ds IH]; [constructor|]. intros H. apply andb_true_iff in H as [H1 H2]. constructor; auto.
    apply Forall_forall. intros d' I. rewrite forallb_forall in H1. specialize (H1 d' I). apply andb_true_iff in H1 as [X Y].
    apply negb_true_iff, belowb_false in X. apply negb_true_iff, belowb_false in Y. split; auto.
Qed.

Lemma a_map_tame : tame proj (lit "/usr/local") usr_local (place tree) a_map.
Proof. apply tame_by_check. vm_compute. reflexivity. Qed.

(** ** C29 *)

(** Entries that are not products are copied in the map's order, exactly those whose destination is missing or older.
    Missing from the full statement: sources in directories named like the output directory with something
    appended (refuted below), and the conditions [tame] and [good_source]. *)
Theorem C29_copies_in_order_partial :
  forall S O prefix P clock m w w',
  tidy S -> slash_free (s_cwd S) -> Forall (fun c => c <> []) O -> slash_free O ->
  tame (s_cwd S) prefix P (nodes w) m ->
  (forall k v, In (k, v) m -> good_source (s_cwd S) O P (dests P m) (nodes w) k v) ->
  install_all S (unparse O) {| i_map := Some m; i_prefix := Some prefix |} clock w = Ok (true, w') ->
  rev (copies w') = rev (copies w) ++ map (copy_of prefix) (filter (needs (s_cwd S) O P (nodes w)) m).
Proof.
  exact (fun S O prefix P clock m w w' T SC ONE SO TM GS R =>
    proj2 (entries_copy S (unparse O) prefix clock T O P (nodes w) m (rev (copies w)) TM SC ONE SO eq_refl GS
             m [] 0 w w' eq_refl (changes_refl P _ _) (fun k v s I => match I with end) (eq_sym (app_nil_r _)) R)).
Qed.
Print Assumptions C29_copies_in_order_partial.

(** The first missing source makes the installation fail, after the entries before it and none after it. *)
Theorem C29_missing_source_fails :
  forall S out prefix clock m1 k v m2 w w1,
  install_all S out {| i_map := Some m1; i_prefix := Some prefix |} clock w = Ok (true, w1) ->
  realpath (s_cwd S) (nodes w1) (cstr k) = None ->
  install_all S out {| i_map := Some (m1 ++ (k, v) :: m2); i_prefix := Some prefix |} clock w = Ok (false, w1).
Proof. exact (fun S out prefix clock m1 k v m2 w w1 => entries_missing S out prefix clock m1 0 w w1 k v m2). Qed.
Print Assumptions C29_missing_source_fails.

(** A source that is not a product is silently left out. *)
Theorem C29_copies_refuted :
  exists S O prefix P clock m w w' k v s,
  tidy S /\ tame (s_cwd S) prefix P (nodes w) m /\ In (k, v) m /\
  lookup (s_cwd S) (nodes w) false k = WFound s /\ ~ product O s /\
  install_all S (unparse O) {| i_map := Some m; i_prefix := Some prefix |} clock w = Ok (true, w') /\
  nodes w' (dest P v) = None /\ copies w' = [].
Proof.
  set (l := (at_ [lit ".bobrc"], VFile (lit "settings") 5%Z) :: tree).
  exists free_sys, bob_dir, (lit "/usr/local"), usr_local, clock, [(lit ".bobrc", lit "etc/bobrc")], (begin l), (begin l), (lit ".bobrc"), (lit "etc/bobrc"), (at_ [lit ".bobrc"]).
  split; [exact free_tidy|]. split; [apply tame_by_check; vm_compute; reflexivity|]. split; [now left|].
  split; [vm_compute; reflexivity|]. split; [apply belowb_false; vm_compute; reflexivity|]. split; [vm_compute; reflexivity|].
  split; vm_compute; reflexivity.
Qed.
Print Assumptions C29_copies_refuted.

Lemma good_by_check O P ds l k v s :
  nul_free k -> lookup proj (hide ds (place l)) false k = WFound s ->
  is_prefix (unparse O) (unparse s) = belowb O s -> Forall (fun c => c <> []) O -> slash_free O ->
  (product O s \/ ((is_directory (place l s) \/ lookup proj (hide ds (place l)) true k = WFound s) /\
     (forall d, In d ds -> ~ below s d) /\ fair (place l) s (dest P v))) ->
  good_source proj O P ds (place l) k v.
Proof.
  intros NK L IP NE SO H. split; auto. exists s. split; auto. split; auto.
  intros (n & p & r & -> & R & B). inversion NE; subst.
  assert (SS : slash_free s). { eapply lookup_slash_free; [|exact L]. repeat constructor. vm_compute. intuition discriminate. }
  assert (X : is_prefix (unparse (n :: p)) (unparse s) = true) by (apply unparse_prefix; eauto).
  rewrite X in IP. symmetry in IP. apply belowb_iff in IP.
  destruct (below_two ((n ++ r) :: p) (n :: p) s B IP) as [Y|Y]; destruct Y as [z Y].
  - destruct z as [|c z]; [|apply (f_equal (@length _)) in Y; cbn in Y; rewrite app_length in Y; cbn in Y; lia].
    injection Y as Y. apply R. rewrite <- (app_nil_r n) in Y at 1. apply app_inv_head in Y. auto.
  - destruct z as [|c z]; [|apply (f_equal (@length _)) in Y; cbn in Y; rewrite app_length in Y; cbn in Y; lia].
    injection Y as Y. apply R. rewrite <- (app_nil_r n) in Y at 2. apply app_inv_head in Y. auto.
Qed.

Lemma bob_dir_ok : Forall (fun c : bytes => c <> []) bob_dir /\ slash_free bob_dir.
Proof. split; repeat constructor; try discriminate; apply has_byte_not_In; vm_compute; reflexivity. Qed.

(** A map with a file, a product and a directory with a link in it; two copies are made. *)
Example C29_nonvacuous :
  (forall k v, In (k, v) a_map -> good_source proj bob_dir usr_local (dests usr_local a_map) (place tree) k v) /\
  exists w', run_install tree a_map = Ok (true, w') /\
  rev (copies w') = [(lit "x.h", lit "/usr/local/include/deep/x.h"); (lit "inc", lit "/usr/local/share/inc")] /\
  nodes w' (lit "a.h" :: lit "inc" :: lit "share" :: usr_local) = Some (VFile (lit "a") 12) /\
  nodes w' (lit "old.h" :: lit "inc" :: lit "share" :: usr_local) = None.
Proof.
  split.
  - intros k v I. destruct bob_dir_ok as [B1 B2].
    destruct I as [I|[I|[I|[]]]]; injection I as <- <-.
    + apply (good_by_check _ _ _ _ _ _ (at_ [lit "x.h"])); [apply has_byte_not_In; vm_compute; reflexivity|vm_compute; reflexivity|vm_compute; reflexivity|exact B1|exact B2|].
      right. split; [right; vm_compute; reflexivity|]. split; [|split; [vm_compute; discriminate|vm_compute; intros [t H]; discriminate]].
      intros d [<-|[<-|[<-|[]]]]; apply belowb_false; vm_compute; reflexivity.
    + apply (good_by_check _ _ _ _ _ _ (at_ [lit ".bob"; lit "bob"; lit "x.o"])); [apply has_byte_not_In; vm_compute; reflexivity|vm_compute; reflexivity|vm_compute; reflexivity|exact B1|exact B2|].
      left. apply belowb_iff. vm_compute. reflexivity.
    + apply (good_by_check _ _ _ _ _ _ (at_ [lit "inc"])); [apply has_byte_not_In; vm_compute; reflexivity|vm_compute; reflexivity|vm_compute; reflexivity|exact B1|exact B2|].
      right. split; [left; exists 4%Z; vm_compute; reflexivity|]. split; [|split; [vm_compute; discriminate|vm_compute; auto]].
      intros d [<-|[<-|[<-|[]]]]; apply belowb_false; vm_compute; reflexivity.
  - eexists. split; [reflexivity|]. vm_compute. repeat split.
Qed.

(** ** C30 *)

Lemma changes_outside P ds f f' : (forall d, In d ds -> below P d) -> changes_only P ds f f' -> untouched_outside P f f'.
Proof.
  intros D C q N. destruct (C q) as [(d & I & B)|[X|((d & I & B1 & B2) & _)]]; auto; [|contradiction].
  destruct N. eapply below_trans; eauto.
Qed.
Lemma dests_below P es d : In d (dests P es) -> below P d.
Proof. intros I. apply in_map_iff in I as ([k v] & <- & _). now exists (rev (names v)). Qed.

Lemma all_outside S out prefix P clock m w r : tidy S -> tame (s_cwd S) prefix P (nodes w) m ->
  install_all S out {| i_map := Some m; i_prefix := Some prefix |} clock w = r ->
  exists b w', r = Ok (b, w') /\ changes_only P (dests P m) (nodes w) (nodes w') /\ untouched_outside P (nodes w) (nodes w').
Proof.
  intros TD T H. destruct (entries_change S out prefix clock TD P (nodes w) m [] 0 w r T (changes_refl _ _ _) H) as (b & w' & E & C).
  exists b, w'. split; auto. split; auto. eapply changes_outside; [|exact C]. apply dests_below.
Qed.

Lemma cookie_outside S out prefix P m now w cookie b w' : tidy S -> tame (s_cwd S) prefix P (nodes w) m ->
  install_cookie S out {| i_map := Some m; i_prefix := Some prefix |} now w cookie = Ok (b, w') ->
  changes_only P (dests P m) (nodes w) (nodes w') /\ untouched_outside P (nodes w) (nodes w').
Proof.
  intros TD T. unfold install_cookie, cookie_to_output. cbn [i_map i_prefix].
  destruct (find _ m) as [[k v]|] eqn:F; intros H.
  - apply find_some in F as [F _]. pose proof (tm_vals _ _ _ _ _ T k v F) as OV.
    assert (SV : cstr v = v) by (apply cstr_nul_free, OV).
    assert (CM : calm (s_cwd S) prefix P (nodes w) v).
    { eapply (tame_calm _ _ _ _ _ k v [] (nodes w) T F); [intros ? []|intros ? []|apply changes_refl]. }
    rewrite <- SV in CM. pose proof (single_effect S (Some out) TD out prefix now w P k v true b w' CM H) as C. rewrite SV in C.
    assert (C' : changes_only P (dests P m) (nodes w) (nodes w')).
    { eapply changes_more; [|exact C]. intros d [<-|[]]. apply in_map_iff. exists (k, v). auto. }
    split; auto. eapply changes_outside; [|exact C']. apply dests_below.
  - injection H as _ <-. split; [apply changes_refl|intros q _; reflexivity].
Qed.

(** Whether the installation succeeds or fails, even in the middle of a copy. Under the prefix, only the
    destinations and the directories leading to them change. Missing from the full statement: destinations with ".." and links
    under the prefix (both refuted below). *)
Theorem C30_install_stays_in_prefix_partial :
  forall S out prefix P clock m w r,
  tidy S -> tame (s_cwd S) prefix P (nodes w) m ->
  install_all S out {| i_map := Some m; i_prefix := Some prefix |} clock w = r ->
  exists b w', r = Ok (b, w') /\ changes_only P (dests P m) (nodes w) (nodes w') /\ untouched_outside P (nodes w) (nodes w').
Proof. exact all_outside. Qed.
Print Assumptions C30_install_stays_in_prefix_partial.

(** The same for the products, which are installed one by one during the build. *)
Theorem C30_product_stays_in_prefix_partial :
  forall S out prefix P m now w cookie b w',
  tidy S -> tame (s_cwd S) prefix P (nodes w) m ->
  install_cookie S out {| i_map := Some m; i_prefix := Some prefix |} now w cookie = Ok (b, w') ->
  changes_only P (dests P m) (nodes w) (nodes w') /\ untouched_outside P (nodes w) (nodes w').
Proof. exact cookie_outside. Qed.
Print Assumptions C30_product_stays_in_prefix_partial.

Theorem C30_dotdot_refuted :
  exists S out prefix P clock m w w' q,
  tidy S /\ lookup (s_cwd S) (nodes w) false prefix = WFound P /\ (forall t, ~ is_link (nodes w t)) /\
  install_all S out {| i_map := Some m; i_prefix := Some prefix |} clock w = Ok (true, w') /\
  ~ below P q /\ nodes w' q <> nodes w q.
Proof.
  set (l := [([], VDir 1); (proj, VDir 1); ([lit "usr"], VDir 1); (usr_local, VDir 1); (at_ [lit "x.h"], VFile (lit "int x;") 5%Z)]).
  exists free_sys, (unparse bob_dir), (lit "/usr/local"), usr_local, clock, [(lit "x.h", lit "../x.h")], (begin l).
  eexists. exists [lit "x.h"; lit "usr"].
  split; [exact free_tidy|]. split; [vm_compute; reflexivity|].
  split; [intros t; apply place_no_link; vm_compute; reflexivity|]. split; [vm_compute; reflexivity|].
  split; [apply belowb_false; vm_compute; reflexivity|vm_compute; discriminate].
Qed.
Print Assumptions C30_dotdot_refuted.

Theorem C30_link_refuted :
  exists S out prefix P clock m w w' q,
  tidy S /\ lookup (s_cwd S) (nodes w) false prefix = WFound P /\ Forall (fun e => ordinary (snd e)) m /\
  install_all S out {| i_map := Some m; i_prefix := Some prefix |} clock w = Ok (true, w') /\
  ~ below P q /\ nodes w' q <> nodes w q.
Proof.
  set (l := (lit "include" :: usr_local, VLink (lit "/usr/include")) :: ([lit "include"; lit "usr"], VDir 1%Z) :: tree).
  exists free_sys, (unparse bob_dir), (lit "/usr/local"), usr_local, clock, [(lit "x.h", lit "include/x.h")], (begin l).
  eexists. exists [lit "x.h"; lit "include"; lit "usr"].
  split; [exact free_tidy|]. split; [vm_compute; reflexivity|]. split.
  { repeat constructor; try (vm_compute; discriminate). apply has_byte_not_In; vm_compute; reflexivity. }
  split; [vm_compute; reflexivity|]. split; [apply belowb_false; vm_compute; reflexivity|vm_compute; discriminate].
Qed.
Print Assumptions C30_link_refuted.

Example C30_nonvacuous :
  tidy free_sys /\ tame proj (lit "/usr/local") usr_local (place tree) a_map /\
  exists w', run_install tree a_map = Ok (true, w') /\ nodes w' (lit "x.h" :: lit "deep" :: lit "include" :: usr_local) = Some (VFile (lit "int x;") 10).
Proof.
  split; [exact free_tidy|]. split; [exact a_map_tame|]. eexists. split; [reflexivity|]. vm_compute. reflexivity.
Qed.

(** ** C31 *)

(** Every destination has its source's content, a directory's with its whole tree and nothing else. Missing
    from the full statement: the conditions of [good_source] other than not being a product (refuted below). *)
Theorem C31_destinations_have_content_partial :
  forall S O prefix P clock m w w' k v s,
  tidy S -> slash_free (s_cwd S) -> Forall (fun c => c <> []) O -> slash_free O ->
  tame (s_cwd S) prefix P (nodes w) m ->
  (forall k v, In (k, v) m -> good_source (s_cwd S) O P (dests P m) (nodes w) k v) ->
  install_all S (unparse O) {| i_map := Some m; i_prefix := Some prefix |} clock w = Ok (true, w') ->
  In (k, v) m -> lookup (s_cwd S) (nodes w) false k = WFound s -> ~ product O s ->
  holds (nodes w) s (nodes w') (dest P v).
Proof.
  exact (fun S O prefix P clock m w w' k v s T SC ONE SO TM GS R =>
    proj1 (entries_copy S (unparse O) prefix clock T O P (nodes w) m (rev (copies w)) TM SC ONE SO eq_refl GS
             m [] 0 w w' eq_refl (changes_refl P _ _) (fun k v s I => match I with end) (eq_sym (app_nil_r _)) R) k v s).
Qed.
Print Assumptions C31_destinations_have_content_partial.

(** A destination that is not older than the source is taken to be up to date. *)
Theorem C31_newer_destination_refuted :
  exists S O prefix P clock m w w' k v s,
  tidy S /\ tame (s_cwd S) prefix P (nodes w) m /\ In (k, v) m /\
  lookup (s_cwd S) (nodes w) true k = WFound s /\ ~ product O s /\ ~ namesake O s /\
  install_all S (unparse O) {| i_map := Some m; i_prefix := Some prefix |} clock w = Ok (true, w') /\
  ~ holds (nodes w) s (nodes w') (dest P v).
Proof.
  set (l := (lit "x.h" :: usr_local, VFile (lit "other") 5%Z) :: tree).
  exists free_sys, bob_dir, (lit "/usr/local"), usr_local, clock, [(lit "x.h", lit "x.h")], (begin l). eexists.
  exists (lit "x.h"), (lit "x.h"), (at_ [lit "x.h"]).
  split; [exact free_tidy|]. split; [apply tame_by_check; vm_compute; reflexivity|]. split; [now left|].
  split; [vm_compute; reflexivity|]. split; [apply belowb_false; vm_compute; reflexivity|].
  split; [intros (n & p & r & E & R & [x B]); injection E as <- <-; apply (f_equal (@length _)) in B as LB; rewrite app_length in LB; cbn in LB;
          assert (x = []) by (destruct x; auto; cbn in LB; lia); subst x; discriminate|].
  split; [vm_compute; reflexivity|]. vm_compute. discriminate.
Qed.
Print Assumptions C31_newer_destination_refuted.

(** A source that is a link to a file is copied as a link, which leads elsewhere from its new place. *)
Theorem C31_link_refuted :
  exists S O prefix P clock m w w' k v c,
  tidy S /\ tame (s_cwd S) prefix P (nodes w) m /\ In (k, v) m /\
  (exists t, view (s_cwd S) (nodes w) k = File c t) /\
  install_all S (unparse O) {| i_map := Some m; i_prefix := Some prefix |} clock w = Ok (true, w') /\
  view (s_cwd S) (nodes w') (prefix ++ lit "/" ++ v) = Absent.
Proof.
  set (l := (at_ [lit "current.h"], VLink (lit "x.h")) :: tree).
  exists free_sys, bob_dir, (lit "/usr/local"), usr_local, clock, [(lit "current.h", lit "current.h")], (begin l). eexists.
  exists (lit "current.h"), (lit "current.h"), (lit "int x;").
  split; [exact free_tidy|]. split; [apply tame_by_check; vm_compute; reflexivity|]. split; [now left|].
  split; [eexists; vm_compute; reflexivity|]. split; [vm_compute; reflexivity|]. vm_compute. reflexivity.
Qed.
Print Assumptions C31_link_refuted.

(** A file whose destination is a directory is put into it. *)
Theorem C31_directory_refuted :
  exists S O prefix P clock m w w' k v s,
  tidy S /\ tame (s_cwd S) prefix P (nodes w) m /\ In (k, v) m /\
  lookup (s_cwd S) (nodes w) true k = WFound s /\ ~ product O s /\
  install_all S (unparse O) {| i_map := Some m; i_prefix := Some prefix |} clock w = Ok (true, w') /\
  is_directory (nodes w' (dest P v)) /\ nodes w' (lit "x.h" :: dest P v) = Some (VFile (lit "int x;") 10).
Proof.
  exists free_sys, bob_dir, (lit "/usr/local"), usr_local, clock, [(lit "x.h", lit "share")], (begin tree). eexists.
  exists (lit "x.h"), (lit "share"), (at_ [lit "x.h"]).
  split; [exact free_tidy|]. split; [apply tame_by_check; vm_compute; reflexivity|]. split; [now left|].
  split; [vm_compute; reflexivity|]. split; [apply belowb_false; vm_compute; reflexivity|].
  split; [vm_compute; reflexivity|]. split; [eexists|]; vm_compute; reflexivity.
Qed.
Print Assumptions C31_directory_refuted.

Example C31_nonvacuous :
  (forall k v, In (k, v) a_map -> good_source proj bob_dir usr_local (dests usr_local a_map) (place tree) k v) /\
  exists w', run_install tree a_map = Ok (true, w') /\ lookup proj (place tree) false (lit "inc") = WFound (at_ [lit "inc"]) /\
  ~ product bob_dir (at_ [lit "inc"]) /\
  nodes w' (lit "latest" :: lit "inc" :: lit "share" :: usr_local) = Some (VLink (lit "a.h")).
Proof.
  split; [apply C29_nonvacuous|]. eexists. split; [reflexivity|]. split; [vm_compute; reflexivity|].
  split; [apply belowb_false; vm_compute; reflexivity|]. vm_compute. reflexivity.
Qed.

(** ** C32, the part of [install.c] *)

(** Building for an install: when [install_cookie] succeeds for a product that the map names, the destination has the
    product's content. That the build does this for every product, rebuilt or not, is in PropertiesDeliver.
    Missing from the full statement: products the map names by another spelling of their path (refuted below), and destinations not older than the
    product with other content. *)
Theorem C32_product_copied_partial :
  forall S O prefix P m now w w' k v s,
  tidy S -> slash_free (s_cwd S) -> Forall (fun c => c <> []) O -> slash_free O ->
  tame (s_cwd S) prefix P (nodes w) m -> NoDup (map fst m) -> In (k, v) m -> nul_free k ->
  lookup (s_cwd S) (hide [dest P v] (nodes w)) true k = WFound s ->
  lookup (s_cwd S) (hide [dest P v] (nodes w)) false k = WFound s ->
  product O s -> ~ below s (dest P v) -> fair (nodes w) s (dest P v) ->
  install_cookie S (unparse O) {| i_map := Some m; i_prefix := Some prefix |} now w k = Ok (true, w') ->
  holds (nodes w) s (nodes w') (dest P v) /\
  copies w' = (if older (nodes w) (dest P v) s then [copy_of prefix (k, v)] else []) ++ copies w.
Proof.
  intros S O prefix P m now w w' k v s TD SC ONE SO T ND I NK LT LF PR NB FA H.
  unfold install_cookie, cookie_to_output in H. cbn [i_map i_prefix] in H.
  assert (F : find (fun e => same_name (fst e) k) m = Some (k, v)).
  { clear - ND I. induction m as [|[k' v'] m IH]; [destruct I|]. cbn. unfold same_name. inversion ND; subst.
    destruct I as [I|I].
    - injection I as -> ->. now rewrite bytes_eqb_refl.
    - destruct (bytes_eqb k' k) eqn:E; [|now apply IH]. apply bytes_eqb_eq in E. subst k'. destruct H1. apply in_map_iff. exists (k, v). auto. }
  rewrite F in H.
  assert (CM : calm (s_cwd S) prefix P (nodes w) v).
  { eapply (tame_calm _ _ _ _ _ k v [] (nodes w) T I); [intros ? []|intros ? []|apply changes_refl]. }
  assert (IP : is_prefix (unparse O) (unparse s) = true).
  { destruct O as [|c O']; [apply unparse_root|]. inversion ONE; subst.
    apply unparse_prefix; [assumption|exact SO|exact (lookup_slash_free _ _ _ _ _ SC LF)|exists []; now rewrite app_nil_r]. }
  exact (single_copies S (unparse O) prefix TD P w k v s now true w' CM NK LF IP (or_intror LT) NB FA H).
Qed.
Print Assumptions C32_product_copied_partial.

(** A plain build sets up the map without a prefix, and installs nothing. *)
Theorem C32_plain_build_installs_nothing :
  forall S out st v now w cookie, i_prefix st = None ->
  i_prefix (snd (setup_install_map st v None)) = None /\
  install_cookie S out (snd (setup_install_map st v None)) now w cookie = Ok (true, w).
Proof.
  intros S out st v now w cookie H.
  assert (X : i_prefix (snd (setup_install_map st v None)) = None).
  { unfold setup_install_map. destruct v as [[| [|e es]|]|]; cbn [snd i_prefix]; auto. destruct (all_strings (e :: es)); cbn; auto. }
  split; auto. unfold install_cookie. now rewrite X.
Qed.
Print Assumptions C32_plain_build_installs_nothing.

(** A product named with "./" in front is neither installed during the build nor afterwards; the installation is
    reported to have succeeded. *)
Theorem C32_spelling_refuted :
  exists S O prefix P clock m w w1 w2 k v s cookie,
  tidy S /\ tame (s_cwd S) prefix P (nodes w) m /\ In (k, v) m /\ product O s /\
  lookup (s_cwd S) (nodes w) true k = WFound s /\ lookup (s_cwd S) (nodes w) true cookie = WFound s /\
  install_cookie S (unparse O) {| i_map := Some m; i_prefix := Some prefix |} (clock 0) w cookie = Ok (true, w1) /\
  install_all S (unparse O) {| i_map := Some m; i_prefix := Some prefix |} clock w1 = Ok (true, w2) /\
  nodes w2 (dest P v) = None.
Proof.
  exists free_sys, bob_dir, (lit "/usr/local"), usr_local, clock, [(lit "./.bob/bob/x.o", lit "lib/x.o")], (begin tree). eexists. eexists.
  exists (lit "./.bob/bob/x.o"), (lit "lib/x.o"), (at_ [lit ".bob"; lit "bob"; lit "x.o"]), (lit ".bob/bob/x.o").
  split; [exact free_tidy|]. split; [apply tame_by_check; vm_compute; reflexivity|]. split; [now left|].
  split; [apply belowb_iff; vm_compute; reflexivity|]. split; [vm_compute; reflexivity|]. split; [vm_compute; reflexivity|].
  split; [vm_compute; reflexivity|]. split; vm_compute; reflexivity.
Qed.
Print Assumptions C32_spelling_refuted.

Example C32_nonvacuous :
  NoDup (map fst a_map) /\ product bob_dir (at_ [lit ".bob"; lit "bob"; lit "x.o"]) /\
  fair (place tree) (at_ [lit ".bob"; lit "bob"; lit "x.o"]) (dest usr_local (lit "lib/x.o")) /\
  exists w', install_cookie free_sys (unparse bob_dir) (with_map a_map) 9 (begin tree) (lit ".bob/bob/x.o") = Ok (true, w') /\
  nodes w' (lit "x.o" :: lit "lib" :: usr_local) = Some (VFile (lit "code") 9).
Proof.
  split; [repeat constructor; cbn; intuition discriminate|]. split; [apply belowb_iff; vm_compute; reflexivity|].
  split; [split; [vm_compute; discriminate|vm_compute; intros [t H]; discriminate]|].
  eexists. split; [reflexivity|]. vm_compute. reflexivity.
Qed.

(** ** C34 *)

Theorem C34_unprivileged_changes_nothing :
  forall S abs_out w p, s_root S = false -> set_owner S abs_out w p = (true, w).
Proof. exact set_owner_unprivileged. Qed.
Print Assumptions C34_unprivileged_changes_nothing.

(** Handing over one path. Missing from the full statement: directories named like the output directory with
    something appended are treated as the output directory (refuted below). *)
Theorem C34_only_in_output_partial :
  forall S O w p ok w', Forall (fun c => c <> []) O -> slash_free O -> slash_free (s_cwd S) ->
  set_owner S (Some (unparse O)) w p = (ok, w') ->
  nodes w' = nodes w /\
  (owners_changed w w' [] \/
   exists l, lookup (s_cwd S) (nodes w) false p = WFound l /\ (product O l \/ namesake O l) /\ owners_changed w w' [l]).
Proof.
  intros S O w p ok w' NE SO SC H. destruct (s_root S) eqn:R.
  - pose proof (set_owner_exact S O w p NE SO SC R) as X. rewrite H in X.
    destruct (lookup (s_cwd S) (nodes w) false p) as [l| | |];
      [destruct X as [(B & _ & X)|[(B & _ & X)|(B & X)]]|..]; injection X as -> ->; split; auto; try (left; reflexivity).
    right. exists l. split; auto. split; auto. reflexivity.
  - rewrite set_owner_unprivileged in H by auto. injection H as <- <-. split; auto. left. reflexivity.
Qed.
Print Assumptions C34_only_in_output_partial.

(** As root, a path in the output directory is handed over. *)
Theorem C34_output_handed_over :
  forall S O w p l, Forall (fun c => c <> []) O -> slash_free O -> slash_free (s_cwd S) -> s_root S = true ->
  lookup (s_cwd S) (nodes w) false p = WFound l -> product O l -> s_chown S l = true ->
  exists w', set_owner S (Some (unparse O)) w p = (true, w') /\ owners_changed w w' [l].
Proof.
  intros S O w p l NE SO SC R L PR CH. pose proof (set_owner_exact S O w p NE SO SC R) as X. rewrite L in X.
  destruct X as [(_ & _ & X)|[(_ & Y & _)|(B & _)]]; [|congruence|destruct B; auto].
  eexists. split; [exact X|reflexivity].
Qed.
Print Assumptions C34_output_handed_over.

(** Everything an installation hands over. *)
Theorem C34_install_partial :
  forall S O prefix clock m w b w', Forall (fun c => c <> []) O -> slash_free O -> slash_free (s_cwd S) ->
  install_all S (unparse O) {| i_map := Some m; i_prefix := Some prefix |} clock w = Ok (b, w') ->
  exists ls, owners_changed w w' ls /\ Forall (fun l => product O l \/ namesake O l) ls.
Proof.
  exact (fun S O prefix clock m w b w' NE SO SC => entries_only S O prefix NE SO SC clock m 0 w b w').
Qed.
Print Assumptions C34_install_partial.

(** Before the output directory's absolute path is known, only the output directory itself. *)
Theorem C34_output_directory_itself :
  forall S now w p out w', prepare_out S now w p = Some (out, w') ->
  exists O, lookup (s_cwd S) (nodes w') false p = WFound O /\ out = unparse O /\
  (owners_changed w w' [] \/ owners_changed w w' [O]).
Proof. exact prepare_owner. Qed.
Print Assumptions C34_output_directory_itself.

(** Root installs below "/proj/.bob-root"; the directories created there are handed over. *)
Theorem C34_namesake_refuted :
  exists S O prefix clock m w w' l,
  Forall (fun c => c <> []) O /\ slash_free O /\ slash_free (s_cwd S) /\ s_root S = true /\
  install_all S (unparse O) {| i_map := Some m; i_prefix := Some prefix |} clock w = Ok (true, w') /\
  ~ product O l /\ In l (chowned w') /\ chowned w = [].
Proof.
  set (t := (at_ [lit ".bob-root"], VDir 1%Z) :: tree).
  exists root_sys, bob_dir, (lit "/proj/.bob-root"), clock, [(lit "x.h", lit "include/x.h")], (begin t). eexists.
  exists (at_ [lit ".bob-root"; lit "include"]).
  destruct bob_dir_ok as [B1 B2]. split; [exact B1|]. split; [exact B2|].
  split; [repeat constructor; apply has_byte_not_In; vm_compute; reflexivity|]. split; [reflexivity|].
  split; [vm_compute; reflexivity|]. split; [apply belowb_false; vm_compute; reflexivity|]. split; [vm_compute; auto|reflexivity].
Qed.
Print Assumptions C34_namesake_refuted.

(** As root with no output directory yet: it is created and handed over, and so is a directory made in it; one made elsewhere is not. *)
Example C34_nonvacuous :
  exists w1 w2 w3, prepare_out root_sys 3 (begin [([], VDir 1); (proj, VDir 1)]%Z) (lit ".bob") = Some (unparse bob_dir, w1) /\
  mkdir_wrapped root_sys (Some (unparse bob_dir)) 4 w1 (lit ".bob/bob") = (true, w2) /\
  mkdir_wrapped root_sys (Some (unparse bob_dir)) 4 w2 (lit "other") = (true, w3) /\
  chowned w3 = [at_ [lit ".bob"; lit "bob"]; bob_dir].
Proof. do 3 eexists. split; [vm_compute; reflexivity|]. split; [vm_compute; reflexivity|]. split; vm_compute; reflexivity. Qed.
