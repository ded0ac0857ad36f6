(** * C60: listing directories. *)

From Coq Require Import ZArith Arith Ascii String Lia Bool List.
From Verif Require Import Base Deps FileSys Vfs SpecInstall VfsProofs Fts SpecList FtsProofs FlAst FlState FlInterp SpecFlamingo SpecScript SpecFrame SpecScope Bob SpecBob PropertiesScript PropertiesScope PropertiesImport PropertiesBob.
From Verif Require PropertiesInstall.
Import ListNotations.
Local Open Scope nat_scope.

(** [Fs.list(path)] gives a vector with the path of everything that is in the directory at [path], in the directories in it and so on, [path] itself included, each once, and those of
    directories before those of what is in them. Links are followed; the listing ends even if they lead back to where they are ([dirs] has all directories there are).
    An error is logged for what can't be examined and for directories that can't be read, and for nothing else. Missing from the full statement: that there is an error for
    the script then (refuted below). *)
Theorem C60_list_gives_what_is_there_partial : forall cwd v entries readable dirs sg out pow exists_ files, catalogued v entries dirs ->
  let cf := bob_conf sg out (fs_listing cwd v entries readable (S (length dirs))) pow exists_ files in
  forall n e s k s1 x ps f p arg a s2 path, cur_rv s = None -> evals cf n e s k s1 -> static_method s1 k x ps f -> live s1 f ->
  evals cf (S n) arg (held f s1) a s2 -> static_method s2 k x [p] f -> known_as s2 CFs k -> b_list (host s2) = Some f ->
  holds s2 (DStr path) a -> cstr path <> [] ->
  exists r s' l w, outcome cf (S (S n)) (method_call e x [arg]) s = Ret (Some r, None) s' /\ strings s' r l /\ live s' r /\ asked_for [] s2 s' /\
    NoDup l /\ (forall q, In q l <-> contents cwd v readable (cstr path) q) /\
    (forall anc d q c m, reached cwd v readable (cstr path) anc d q -> is_directory (v d) -> ~ In d anc -> readable d = true -> v (c :: d) <> None ->
      lookup cwd v false (child q c) = WFound m -> comes_before l q (child q c)) /\
    fs_warnings cwd v entries readable (S (length dirs)) (cstr path) = Some w /\ (forall q, In q w <-> skipped cwd v readable (cstr path) q).
Proof. exact fs_list_lists. Qed.
Print Assumptions C60_list_gives_what_is_there_partial.

(** /proj has src, with a file, a directory, a link that leads nowhere and one back to src; nobody may read src/shut. *)
Definition yard : list (loc * node) :=
  [([], VDir 1); ([lit "proj"], VDir 1); ([lit "src"; lit "proj"], VDir 1); ([lit "a.c"; lit "src"; lit "proj"], VFile (lit "A") 2);
   ([lit "sub"; lit "src"; lit "proj"], VDir 1); ([lit "b.c"; lit "sub"; lit "src"; lit "proj"], VFile (lit "B") 2);
   ([lit "back"; lit "sub"; lit "src"; lit "proj"], VLink (lit "..")); ([lit "gone"; lit "src"; lit "proj"], VLink (lit "nowhere"));
   ([lit "shut"; lit "src"; lit "proj"], VDir 1); ([lit "c.c"; lit "shut"; lit "src"; lit "proj"], VFile (lit "C") 2)].
Definition yard_fs : vfs := PropertiesInstall.place yard.
Definition names_in (l : list (loc * node)) (d : loc) : list bytes :=
  nodup (list_eq_dec ascii_dec) (flat_map (fun e => match fst e with c :: d' => if loc_eqb d' d then [c] else [] | [] => [] end) l).
Definition yard_reads (d : loc) : bool := negb (loc_eqb d [lit "shut"; lit "src"; lit "proj"]).
Lemma place_there l q : PropertiesInstall.place l q <> None <-> In q (map fst l).
Proof.
  induction l as [|(p, n) l IH]; cbn [PropertiesInstall.place map fst]; [cbn; tauto|]. unfold put. destruct (loc_eqb q p) eqn:Q.
  - apply loc_eqb_eq in Q. subst p. split; [now left|discriminate].
  - rewrite IH. split; [now right|]. intros [->|J]; [|exact J]. rewrite loc_eqb_refl in Q. discriminate.
Qed.
Lemma place_catalogued l : forallb (fun e => match fst e with c :: _ => negb (is_nil c) && negb (existsb (byte_eqb SLASH) c) && negb (existsb (byte_eqb NUL) c) | [] => true end) l = true ->
  catalogued (PropertiesInstall.place l) (names_in l) (map fst l).
Proof.
  intro F. rewrite forallb_forall in F. constructor.
  - intros d c _. rewrite place_there. unfold names_in. rewrite nodup_In, in_flat_map, in_map_iff. split.
    + intros ((q, n) & J & K). cbn [fst] in K. destruct q as [|c' d']; [destruct K|]. destruct (loc_eqb d' d) eqn:Q; [|destruct K]. apply loc_eqb_eq in Q. destruct K as [<-|[]]. subst d'. now exists (c' :: d, n).
    + intros ((q, n) & Q & J). cbn [fst] in Q. subst q. exists (c :: d, n). split; [exact J|]. cbn [fst]. rewrite loc_eqb_refl. now left.
  - intros d _. apply NoDup_nodup.
  - intros d c H. apply place_there, in_map_iff in H as ((q, n) & Q & J). cbn [fst] in Q. subst q. specialize (F _ J). cbn [fst] in F.
    assert (X : forall x, existsb (byte_eqb x) c = false -> ~ In x c).
    { intros x E K. assert (Y : existsb (byte_eqb x) c = true) by (apply existsb_exists; exists x; split; [exact K|apply byte_eqb_refl]). congruence. }
    apply andb_prop in F as (F & F3). apply andb_prop in F as (F1 & F2). apply negb_true_iff in F2, F3. split; [intros ->; discriminate|]. split; apply X; assumption.
  - intros d (t & Q). apply place_there. congruence.
Qed.
Notation yard_dirs := (map fst yard).
Definition lists_yard : bytes -> option (list bytes) := fs_listing [lit "proj"] yard_fs (names_in yard) yard_reads (S (length yard_dirs)).
Definition fs_conf (listing : bytes -> option (list bytes)) : conf bob :=
  bob_conf true (lit ".bob") listing (fun _ _ => None) bob_there (fun p => if bob_there p then File bob_fl else NoFile (lit "No such file or directory")).
Definition fs_runs (listing : bytes -> option (list bytes)) (ss : list stmt) : out bob unit :=
  run (fs_conf listing) 30 [lit "/usr/local/share/flamingo/import"; lit "import"] fresh_bob (import ["bob"%string] :: ss).
Definition s60 : st bob := Eval vm_compute in state_of (fs_runs lists_yard []).
Definition fs60 : st bob := Eval vm_compute in state_of (outcome (fs_conf lists_yard) 9 (id "Fs") s60).
Definition src60 : st bob := Eval vm_compute in state_of (outcome (fs_conf lists_yard) 9 (str "src") (held 14 fs60)).

Example C60_catalogued_case : catalogued yard_fs (names_in yard) yard_dirs.
Proof. apply place_catalogued. vm_compute. reflexivity. Qed.
Example C60_call_case : cur_rv s60 = None /\ evals (fs_conf lists_yard) 9 (id "Fs") s60 13 fs60 /\ static_method fs60 13 (lit "list") [lit "path"] 14 /\ live fs60 14 /\
  evals (fs_conf lists_yard) 10 (str "src") (held 14 fs60) 19 src60 /\ static_method src60 13 (lit "list") [lit "path"] 14 /\ known_as src60 CFs 13 /\ b_list (host src60) = Some 14 /\
  holds src60 (DStr (lit "src")) 19.
Proof. split; [now_|]. split; [is_evals|]. split; [is_static|]. split; [is_live|]. split; [is_evals|]. split; [is_static|]. split; [now_|]. split; [now_|is_held]. Qed.
(** What comes of it. *)
Example C60_nonvacuous :
  lists_yard (lit "src") = Some [lit "src"; lit "src/a.c"; lit "src/sub"; lit "src/sub/b.c"; lit "src/sub/back"; lit "src/shut"] /\
  fs_warnings [lit "proj"] yard_fs (names_in yard) yard_reads (S (length yard_dirs)) (lit "src") = Some [lit "src/gone"; lit "src/shut"].
Proof. vm_compute. split; reflexivity. Qed.

(** [let l = Fs.list(p)] *)
Definition lists_it (p : bytes) : stmt := let_to "l" (method_call (id "Fs") (lit "list") [EStr p]).
Definition ended_well (o : out bob unit) : bool := match o with Ret _ _ => true | _ => false end.
(** A directory that isn't there is no error for the script, which goes on with an empty vector. *)
Theorem C60_missing_directory_is_an_error_refuted :
  ~ (forall cwd v entries readable dirs p, catalogued v entries dirs -> cstr p <> [] -> (forall f m, lookup cwd v f (cstr p) <> WFound m) ->
     ended_well (fs_runs (fs_listing cwd v entries readable (S (length dirs))) [lists_it p]) = false).
Proof.
  intro H. specialize (H [lit "proj"] yard_fs (names_in yard) yard_reads yard_dirs (lit "srcs") C60_catalogued_case).
  assert (X : ended_well (fs_runs lists_yard [lists_it (lit "srcs")]) = true) by (vm_compute; reflexivity).
  unfold lists_yard in X. rewrite H in X; [discriminate|discriminate|].
  assert (Y : forall f, match lookup [lit "proj"] yard_fs f (cstr (lit "srcs")) with WFound _ => False | _ => True end) by (intros []; vm_compute; exact Logic.I).
  intros f m Q. specialize (Y f). rewrite Q in Y. exact Y.
Qed.
Print Assumptions C60_missing_directory_is_an_error_refuted.
