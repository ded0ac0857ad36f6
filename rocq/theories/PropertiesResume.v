(** * C79, C80: installing again, after an installation that was cut short or one that was not. *)

From Coq Require Import ZArith Ascii String Lia Bool List.
From Verif Require Import Base Deps FileSys Frugal FrugalProofs Vfs Install SpecInstall VfsProofs PathProofs InstallProofs InstallAll SpecResume ResumeProofs Telling SpecTelling TellingProofs TwiceProofs PropertiesInstall.
Import ListNotations.

(** Cut short anywhere but while rm or cp is at work: installing again, if it succeeds, leaves every destination with
    its source's content. Nothing that was done before has to be undone by hand. Missing from the full statement: being
    cut short while a program is at work (refuted below), and the conditions of C31. *)
Theorem C79_again_partial S S2 O prefix P clock clock2 m w w1 w2 k v s :
  tidy S -> tidy S2 -> s_cwd S2 = s_cwd S -> slash_free (s_cwd S) -> Forall (fun c => c <> []) O -> slash_free O ->
  tame (s_cwd S) prefix P (nodes w) m ->
  (forall k v, In (k, v) m -> good_source (s_cwd S) O P (dests P m) (nodes w) k v) ->
  cut_short S (unparse O) prefix P clock w m None w1 -> no_links P (nodes w1) m ->
  install_all S2 (unparse O) {| i_map := Some m; i_prefix := Some prefix |} clock2 w1 = Ok (true, w2) ->
  In (k, v) m -> lookup (s_cwd S) (nodes w) false k = WFound s -> ~ product O s ->
  holds (nodes w) s (nodes w2) (dest P v).
Proof. exact (fun TD TD2 CW SC ONE SO T GS CUT => installed_again S (unparse O) prefix P clock TD O m w T SC ONE SO eq_refl GS S2 clock2 None w1 w2 k v s TD2 CW CUT Logic.I). Qed.
Print Assumptions C79_again_partial.

(** Also when a program was at work, or failed, if the one destination it was at work at was left older than its source
    or complete. All other entries are right in any case. *)
Theorem C79_at_work_partial S S2 O prefix P clock clock2 m w at_work w1 w2 k v s :
  tidy S -> tidy S2 -> s_cwd S2 = s_cwd S -> slash_free (s_cwd S) -> Forall (fun c => c <> []) O -> slash_free O ->
  tame (s_cwd S) prefix P (nodes w) m ->
  (forall k v, In (k, v) m -> good_source (s_cwd S) O P (dests P m) (nodes w) k v) ->
  cut_short S (unparse O) prefix P clock w m at_work w1 -> left_fair (s_cwd S) P (nodes w) at_work (nodes w1) -> no_links P (nodes w1) m ->
  install_all S2 (unparse O) {| i_map := Some m; i_prefix := Some prefix |} clock2 w1 = Ok (true, w2) ->
  In (k, v) m -> lookup (s_cwd S) (nodes w) false k = WFound s -> ~ product O s ->
  holds (nodes w) s (nodes w2) (dest P v).
Proof. exact (fun TD TD2 CW SC ONE SO T GS => installed_again S (unparse O) prefix P clock TD O m w T SC ONE SO eq_refl GS S2 clock2 at_work w1 w2 k v s TD2 CW). Qed.
Print Assumptions C79_at_work_partial.

(** ** What is false of the code *)

Definition cut_map : list (bytes * bytes) := [(lit "x.h", lit "x.h")].
Definition half : vfs := put (place tree) (lit "x.h" :: usr_local) (Some (VFile (lit "int") 10)).

Lemma half_links q : is_link (half q) -> is_link (place tree q).
Proof. unfold half, put. destruct (loc_eqb q (lit "x.h" :: usr_local)); auto. intros [t E]. discriminate. Qed.

(** cp is killed when it has written half of a file. The half is newer than the source, so that the next installation
    takes it for installed and succeeds. *)
Theorem C79_killed_copy_refuted : exists S O prefix P clock clock2 m w k v w1 w2 s,
  tidy S /\ tame (s_cwd S) prefix P (nodes w) m /\
  cut_short S (unparse O) prefix P clock w m (Some (k, v)) w1 /\ no_links P (nodes w1) m /\
  install_all S (unparse O) {| i_map := Some m; i_prefix := Some prefix |} clock2 w1 = Ok (true, w2) /\
  In (k, v) m /\ lookup (s_cwd S) (nodes w) true k = WFound s /\ ~ product O s /\ ~ holds (nodes w) s (nodes w2) (dest P v).
Proof.
  exists free_sys, bob_dir, (lit "/usr/local"), usr_local, clock, (fun i => 100 + clock i)%Z, cut_map, (begin tree), (lit "x.h"), (lit "x.h"),
    (set_nodes (begin tree) half), (set_nodes (begin tree) half), (at_ [lit "x.h"]).
  split; [exact free_tidy|]. split; [apply tame_by_check; vm_compute; reflexivity|]. split.
  { exists [], cut_map, (begin tree). split; [reflexivity|]. split; [reflexivity|]. apply h_at_work with (w1 := begin tree); [vm_compute; reflexivity|].
    intro q. unfold half, put. cbn [nodes begin]. destruct (loc_eqb q (lit "x.h" :: usr_local)) eqn:E; auto. apply loc_eqb_eq in E. subst q. left. apply below_refl. }
  split. { intros k v q I B L. cbn [nodes set_nodes] in L. apply half_links in L. assert (TM : tame proj (lit "/usr/local") usr_local (place tree) cut_map) by (apply tame_by_check; vm_compute; reflexivity).
           exact (tm_dest _ _ _ _ _ TM k v q I B L). }
  split; [vm_compute; reflexivity|]. split; [now left|]. split; [vm_compute; reflexivity|]. split; [apply belowb_false; vm_compute; reflexivity|]. vm_compute. discriminate.
Qed.
Print Assumptions C79_killed_copy_refuted.

(** rm is killed when it has removed one file of a directory, whose time it thereby changes: the directory is never
    replaced. *)
Definition thinned : vfs := put (put (place tree) (lit "old.h" :: lit "inc" :: lit "share" :: usr_local) None) (lit "inc" :: lit "share" :: usr_local) (Some (VDir 10)).
Theorem C79_killed_removal_refuted : exists S O prefix P clock clock2 m w k v w1 w2 s,
  tidy S /\ tame (s_cwd S) prefix P (nodes w) m /\
  cut_short S (unparse O) prefix P clock w m (Some (k, v)) w1 /\ no_links P (nodes w1) m /\
  install_all S (unparse O) {| i_map := Some m; i_prefix := Some prefix |} clock2 w1 = Ok (true, w2) /\
  In (k, v) m /\ lookup (s_cwd S) (nodes w) true k = WFound s /\ ~ product O s /\
  nodes w (lit "a.h" :: s) <> None /\ nodes w2 (lit "a.h" :: dest P v) = None.
Proof.
  set (m := [(lit "inc", lit "share/inc")]).
  exists free_sys, bob_dir, (lit "/usr/local"), usr_local, clock, (fun i => 100 + clock i)%Z, m, (begin tree), (lit "inc"), (lit "share/inc"),
    (set_nodes (begin tree) thinned), (set_nodes (begin tree) thinned), (at_ [lit "inc"]).
  assert (TM : tame proj (lit "/usr/local") usr_local (place tree) m) by (apply tame_by_check; vm_compute; reflexivity).
  split; [exact free_tidy|]. split; [exact TM|]. split.
  { exists [], m, (begin tree). split; [reflexivity|]. split; [reflexivity|]. apply h_at_work with (w1 := begin tree); [vm_compute; reflexivity|].
    intro q. unfold thinned, put. cbn [nodes begin]. destruct (loc_eqb q (lit "inc" :: lit "share" :: usr_local)) eqn:E.
    - apply loc_eqb_eq in E. subst q. left. apply below_refl.
    - destruct (loc_eqb q (lit "old.h" :: lit "inc" :: lit "share" :: usr_local)) eqn:E2; auto. apply loc_eqb_eq in E2. subst q. left. exists [lit "old.h"]. reflexivity. }
  split. { intros k v q I B L. cbn [nodes set_nodes] in L. apply (tm_dest _ _ _ _ _ TM k v q I B). revert L. unfold thinned, put.
           destruct (loc_eqb _ _); [intros [t E]; discriminate|]. destruct (loc_eqb _ _); [intros [t E]; discriminate|]. auto. }
  split; [vm_compute; reflexivity|]. split; [now left|]. split; [vm_compute; reflexivity|]. split; [apply belowb_false; vm_compute; reflexivity|].
  split; [vm_compute; discriminate|vm_compute; reflexivity].
Qed.
Print Assumptions C79_killed_removal_refuted.

(** Nor need anything be killed: the disk is full, the first installation fails and says so, the second succeeds. *)
Definition full_sys : sys :=
  {| s_cwd := proj; s_may := fun _ _ => false; s_torn := fun f l => put f l (Some (VFile (lit "int") 10)); s_root := false; s_chown := fun _ => true |}.
Theorem C79_failed_copy_refuted : exists S O prefix P clock clock2 m w k v w1 w2 s,
  tidy S /\ tame (s_cwd S) prefix P (nodes w) m /\
  install_all S (unparse O) {| i_map := Some m; i_prefix := Some prefix |} clock w = Ok (false, w1) /\
  install_all free_sys (unparse O) {| i_map := Some m; i_prefix := Some prefix |} clock2 w1 = Ok (true, w2) /\
  In (k, v) m /\ lookup (s_cwd S) (nodes w) true k = WFound s /\ ~ product O s /\ ~ holds (nodes w) s (nodes w2) (dest P v).
Proof.
  exists full_sys, bob_dir, (lit "/usr/local"), usr_local, clock, (fun i => 100 + clock i)%Z, cut_map, (begin tree), (lit "x.h"), (lit "x.h"). eexists. eexists. exists (at_ [lit "x.h"]).
  split. { intros f l q B. cbn [full_sys s_torn]. unfold put. destruct (loc_eqb q l) eqn:E; auto. apply loc_eqb_eq in E. subst q. assert (X : below l l) by apply below_refl. apply belowb_iff in X. congruence. }
  split; [apply tame_by_check; vm_compute; reflexivity|]. split; [vm_compute; reflexivity|]. split; [vm_compute; reflexivity|].
  split; [now left|]. split; [vm_compute; reflexivity|]. split; [apply belowb_false; vm_compute; reflexivity|]. vm_compute. discriminate.
Qed.
Print Assumptions C79_failed_copy_refuted.

(** ** A case: after the first file and a removal *)

Lemma add_links now f l n q : ~ is_link (Some n) -> is_link (add now f l n q) -> is_link (f q).
Proof.
  intros N. unfold add, touch. assert (A : is_link (put f l (Some n) q) -> is_link (f q)) by (unfold put; destruct (loc_eqb q l); auto; contradiction).
  destruct (put f l (Some n) (tl l)) as [[| |]|]; auto. unfold put at 1. destruct (loc_eqb q (tl l)); auto. intros [t9 E]. discriminate.
Qed.
Lemma mkdirs_links S out now q : forall bits w accum, is_link (nodes (snd (mkdirs S out now w accum bits)) q) -> is_link (nodes w q).
Proof.
  induction bits as [|b bits IH]; intros w accum; cbn [mkdirs snd]; auto. destruct (is_nil b); [apply IH|].
  destruct (mkdir_wrapped S out now w (accum ++ SLASH :: b)) as [ok w1] eqn:M.
  assert (A : is_link (nodes w1 q) -> is_link (nodes w q)).
  { unfold mkdir_wrapped in M. destruct (mkdir S now (nodes w) (accum ++ SLASH :: b)) as [f l| |] eqn:K; injection M as _ <-; auto.
    rewrite (proj1 (set_owner_nodes S out _ _)). cbn [nodes set_nodes]. unfold mkdir in K. destruct (lookup _ _ _ _); try discriminate. destruct (s_may _ _ _); [|discriminate].
    injection K as <- _. apply add_links. intros [t E]. discriminate. }
  destruct ok; cbn [snd]; [|exact A]. intro L. apply A, (IH w1 _ L).
Qed.
Lemma rm_links S now f p f' q : rm_rf S now f p = (true, f') -> is_link (f' q) -> is_link (f q).
Proof.
  unfold rm_rf. destruct (is_nil _ || _ || _); [discriminate|]. destruct (lookup _ _ _ _) as [l| | |]; try discriminate; try (intros E; injection E as <-; auto; fail).
  destruct (_ && _); [discriminate|]. destruct (s_may _ _ _); [|discriminate]. intros E. injection E as <-.
  assert (A : is_link (if belowb l q then None else f q) -> is_link (f q)) by (destruct (belowb l q); auto; intros [t E]; discriminate).
  unfold touch. destruct (belowb l (tl l)); [exact A|]. destruct (f (tl l)) as [[| |]|]; auto. unfold put. destruct (loc_eqb q (tl l)); auto. intros [t' E]. discriminate.
Qed.

Definition two : list (bytes * bytes) := [(lit "x.h", lit "include/deep/x.h"); (lit "inc", lit "share/inc")].
Definition made : vw := snd (mkdirs free_sys (Some (unparse bob_dir)) (clock 0) (begin tree) (lit "/usr/local") (strsep SLASH (dirname (lit "include/deep/x.h")))).
Definition x_there : loc := lit "x.h" :: lit "deep" :: lit "include" :: usr_local.
Definition after_one : vw :=
  {| nodes := add (clock 0) (nodes made) x_there (VFile (lit "int x;") (clock 0)); chowned := []; copies := [(lit "x.h", lit "/usr/local/include/deep/x.h")] |}.
Definition removed : vfs := snd (rm_rf free_sys (clock 1) (nodes after_one) (lit "/usr/local/share/inc")).
Definition stopped : vw := set_nodes after_one removed.

Example C79_case :
  tame proj (lit "/usr/local") usr_local (place tree) two /\
  (forall k v, In (k, v) two -> good_source proj bob_dir usr_local (dests usr_local two) (place tree) k v) /\
  cut_short free_sys (unparse bob_dir) (lit "/usr/local") usr_local clock (begin tree) two None stopped /\
  no_links usr_local (nodes stopped) two /\ nodes stopped (dest usr_local (lit "share/inc")) = None /\
  exists w2, install_all free_sys (unparse bob_dir) (with_map two) (fun i => 100 + clock i)%Z stopped = Ok (true, w2) /\
  nodes w2 x_there = Some (VFile (lit "int x;") 10) /\ nodes w2 (lit "a.h" :: dest usr_local (lit "share/inc")) = Some (VFile (lit "a") 111).
Proof.
  assert (TM : tame proj (lit "/usr/local") usr_local (place tree) two) by (apply tame_by_check; vm_compute; reflexivity).
  destruct bob_dir_ok as [B1 B2]. split; [exact TM|]. split; [|split; [|split; [|split]]].
  - intros k v I. destruct I as [I|[I|[]]]; injection I as <- <-.
    + apply (good_by_check _ _ _ _ _ _ (at_ [lit "x.h"])); [apply has_byte_not_In; vm_compute; reflexivity|vm_compute; reflexivity|vm_compute; reflexivity|exact B1|exact B2|].
      right. split; [right; vm_compute; reflexivity|]. split; [|split; [vm_compute; discriminate|vm_compute; intros [t H]; discriminate]].
      intros d [<-|[<-|[]]]; apply belowb_false; vm_compute; reflexivity.
    + apply (good_by_check _ _ _ _ _ _ (at_ [lit "inc"])); [apply has_byte_not_In; vm_compute; reflexivity|vm_compute; reflexivity|vm_compute; reflexivity|exact B1|exact B2|].
      right. split; [left; eexists; vm_compute; reflexivity|]. split; [|split; [vm_compute; discriminate|vm_compute; exact Logic.I]].
      intros d [<-|[<-|[]]]; apply belowb_false; vm_compute; reflexivity.
  - exists [(lit "x.h", lit "include/deep/x.h")], [(lit "inc", lit "share/inc")], after_one. split; [reflexivity|]. split; [vm_compute; reflexivity|].
    apply h_removed; vm_compute; reflexivity.
  - intros k v q I B L. apply (tm_dest _ _ _ _ _ TM k v q I B). unfold stopped in L. cbn [nodes set_nodes] in L.
    apply (rm_links free_sys (clock 1) (nodes after_one) (lit "/usr/local/share/inc") removed q) in L; [|vm_compute; reflexivity].
    unfold after_one in L. cbn [nodes] in L. apply add_links in L; [|intros [t E]; discriminate]. exact (mkdirs_links _ _ _ _ _ _ _ L).
  - vm_compute. reflexivity.
  - eexists. split; [vm_compute; reflexivity|]. split; vm_compute; reflexivity.
Qed.

(** ** C80 *)

(** After a successful installation another one succeeds, copies nothing and changes nothing, even where nothing may be
    written any more ([S2]). Missing from the full statement: sources dated later than the first installation (refuted
    below), links under the destinations, and the conditions of C31. *)
Theorem C80_second_changes_nothing_partial S S2 O prefix P clock clock2 m w w1 :
  tidy S -> s_cwd S2 = s_cwd S -> slash_free (s_cwd S) -> Forall (fun c => c <> []) O -> slash_free O ->
  tame (s_cwd S) prefix P (nodes w) m ->
  (forall k v, In (k, v) m -> good_source (s_cwd S) O P (dests P m) (nodes w) k v) ->
  (forall k v s i ts, In (k, v) m -> lookup (s_cwd S) (nodes w) false k = WFound s -> time_of (nodes w s) = Some ts -> (ts <= clock i)%Z) ->
  install_all S (unparse O) {| i_map := Some m; i_prefix := Some prefix |} clock w = Ok (true, w1) -> no_links P (nodes w1) m ->
  install_all S2 (unparse O) {| i_map := Some m; i_prefix := Some prefix |} clock2 w1 = Ok (true, w1).
Proof.
  exact (fun TD CW SC ONE SO T GS CL R1 NL => second_changes_nothing S (unparse O) prefix P clock TD O m w w1 T SC ONE SO eq_refl GS R1 NL CL S2 clock2 CW).
Qed.
Print Assumptions C80_second_changes_nothing_partial.

(** It runs no program, needing neither rm nor cp, and says of every entry, in their order, that it is already installed
    or, of a product, nothing. *)
Theorem C80_says_so_partial S S2 O prefix P clock clock2 es w w1 programs output why :
  let m := map (fun e : bytes * bool * bytes => (fst (fst e), snd e)) es in
  tidy S -> s_cwd S2 = s_cwd S -> slash_free (s_cwd S) -> Forall (fun c => c <> []) O -> slash_free O ->
  tame (s_cwd S) prefix P (nodes w) m ->
  (forall k v, In (k, v) m -> good_source (s_cwd S) O P (dests P m) (nodes w) k v) ->
  (forall k v s i ts, In (k, v) m -> lookup (s_cwd S) (nodes w) false k = WFound s -> time_of (nodes w s) = Some ts -> (ts <= clock i)%Z) ->
  install_all S (unparse O) {| i_map := Some m; i_prefix := Some prefix |} clock w = Ok (true, w1) -> no_links P (nodes w1) m ->
  exists mss, tell_entries S2 (Some (unparse O)) programs output why (unparse O) prefix clock2 0 w1 es = Ok (true, w1, concat mss) /\
  Forall2 (fun e ms => (ms = [] /\ exists path, realpath (s_cwd S2) (nodes w1) (cstr (fst (fst e))) = Some path /\ is_prefix (unparse O) path = true) \/
                       ms = [found_line false (cstr (snd e))]) es mss.
Proof.
  exact (fun TD CW SC ONE SO T GS CL R1 NL =>
    second_said S (unparse O) prefix P clock TD O _ w w1 T SC ONE SO eq_refl GS R1 NL CL S2 programs output why clock2 CW es 0 (incl_refl _)).
Qed.
Print Assumptions C80_says_so_partial.

(** A source dated later than its installation is copied every time. *)
Theorem C80_future_source_refuted : exists S O prefix P clock clock2 m w w1 w2,
  tidy S /\ tame (s_cwd S) prefix P (nodes w) m /\
  (forall k v, In (k, v) m -> good_source (s_cwd S) O P (dests P m) (nodes w) k v) /\
  install_all S (unparse O) {| i_map := Some m; i_prefix := Some prefix |} clock w = Ok (true, w1) /\
  install_all S (unparse O) {| i_map := Some m; i_prefix := Some prefix |} clock2 w1 = Ok (true, w2) /\ length (copies w2) = 2%nat.
Proof.
  set (l := (at_ [lit "x.h"], VFile (lit "int x;") 500%Z) :: tree).
  exists free_sys, bob_dir, (lit "/usr/local"), usr_local, clock, (fun i => 100 + clock i)%Z, cut_map, (begin l). eexists. eexists. destruct bob_dir_ok as [B1 B2].
  split; [exact free_tidy|]. split; [apply tame_by_check; vm_compute; reflexivity|]. split.
  { intros k v I. destruct I as [I|[]]; injection I as <- <-.
    apply (good_by_check _ _ _ _ _ _ (at_ [lit "x.h"])); [apply has_byte_not_In; vm_compute; reflexivity|vm_compute; reflexivity|vm_compute; reflexivity|exact B1|exact B2|].
    right. split; [right; vm_compute; reflexivity|]. split; [|split; [vm_compute; discriminate|vm_compute; intros [t H]; discriminate]].
    intros d [<-|[]]; apply belowb_false; vm_compute; reflexivity. }
  split; [vm_compute; reflexivity|]. split; vm_compute; reflexivity.
Qed.
Print Assumptions C80_future_source_refuted.

(** The conditions are met by the installation of one file and one product. *)
Definition file_and_product : list (bytes * bytes) := [(lit "x.h", lit "include/deep/x.h"); (lit ".bob/bob/x.o", lit "lib/x.o")].
Example C80_case :
  (forall k v, In (k, v) file_and_product -> good_source proj bob_dir usr_local (dests usr_local file_and_product) (place tree) k v) /\
  (forall k v s i ts, In (k, v) file_and_product -> lookup proj (place tree) false k = WFound s -> time_of (place tree s) = Some ts -> (ts <= clock i)%Z) /\
  tame proj (lit "/usr/local") usr_local (place tree) file_and_product /\
  run_install tree file_and_product = Ok (true, after_one) /\ no_links usr_local (nodes after_one) file_and_product /\
  exists w2, install_all free_sys (unparse bob_dir) (with_map file_and_product) (fun i => 100 + clock i)%Z after_one = Ok (true, w2) /\ length (copies w2) = 1%nat.
Proof.
  assert (TM : tame proj (lit "/usr/local") usr_local (place tree) file_and_product) by (apply tame_by_check; vm_compute; reflexivity).
  destruct bob_dir_ok as [B1 B2]. split; [|split; [|split; [exact TM|split; [vm_compute; reflexivity|split]]]].
  - intros k v I. destruct I as [I|[I|[]]]; injection I as <- <-.
    + apply (good_by_check _ _ _ _ _ _ (at_ [lit "x.h"])); [apply has_byte_not_In; vm_compute; reflexivity|vm_compute; reflexivity|vm_compute; reflexivity|exact B1|exact B2|].
      right. split; [right; vm_compute; reflexivity|]. split; [|split; [vm_compute; discriminate|vm_compute; intros [t H]; discriminate]].
      intros d [<-|[<-|[]]]; apply belowb_false; vm_compute; reflexivity.
    + apply (good_by_check _ _ _ _ _ _ (at_ [lit ".bob"; lit "bob"; lit "x.o"])); [apply has_byte_not_In; vm_compute; reflexivity|vm_compute; reflexivity|vm_compute; reflexivity|exact B1|exact B2|].
      left. apply belowb_iff. vm_compute. reflexivity.
  - intros k v s i ts I L E.
    assert (X : (ts <= 10)%Z).
    { destruct I as [I|[I|[]]]; injection I as <- <-; vm_compute in L; injection L as <-; vm_compute in E; injection E as <-; lia. }
    unfold clock. lia.
  - intros k v q I B L. apply (tm_dest _ _ _ _ _ TM k v q I B).
    unfold after_one in L. cbn [nodes] in L. apply add_links in L; [|intros [t E]; discriminate]. exact (mkdirs_links _ _ _ _ _ _ _ L).
  - eexists. split; vm_compute; reflexivity.
Qed.
