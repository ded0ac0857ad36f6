(** * C32, with the installer of install.c. *)

From Coq Require Import ZArith Arith Ascii String Lia Bool List.
From Verif Require Import Base FileSys Frugal Deps Log Cookie CookieProofs Build SpecBuild SpecHistory SpecFiles Plan SpecPlan SpecDeliver DeliverProofs Drive Toy
  Vfs Install SpecInstall VfsProofs Ground GroundProofs PropertiesDeliver.
From Verif Require PropertiesInstall.
Import ListNotations.
Local Open Scope nat_scope.

(** C32_build_installs_products_partial with [install_cookie] itself for the installer, run on the tree that the build's files make up ([Ground]): what was assumed there
    of the installer is here proved of it. Missing, besides what is missing there: directories as destinations, and an output directory that is under the prefix or has it
    as one of its products. *)
Theorem C32_build_with_install_cookie_partial :
  forall sg out E srcs links rs w w' S prefix O B P base m,
  grounded S out prefix O B P base m -> installer E = ground_installer S out prefix O B P base m ->
  1 <= ncpus E -> monotone (clock E) -> (forall p, product_dir out p -> ~ prefix_area prefix p) ->
  (forall fl s f f', (forall p, source (product_dir out) (prefix_area prefix) p -> f p = f' p) -> cc_deps E fl s f = cc_deps E fl s f') ->
  (forall fl s f f', (forall p, source (product_dir out) (prefix_area prefix) p -> f p = f' p) -> cc_obj E fl s f = cc_obj E fl s f') ->
  well_named sg out E (prefix_area prefix) srcs links -> good_requests sg out (prefix_area prefix) srcs links rs ->
  (forall o, wanted_product sg out rs o -> awaiting (map_goes out prefix m) (clock E (tick w)) (files w) o) ->
  build sg out E rs w 0 w' ->
  forall c v, fine_name c = true -> wanted_product sg out rs (out ++ lit "/bob/" ++ c) -> In (out ++ lit "/bob/" ++ c, v) m ->
  exists x t t', files w' (out ++ lit "/bob/" ++ c) = File x t /\ files w' (prefix ++ lit "/" ++ v) = File x t'.
Proof. exact ground_build. Qed.
Print Assumptions C32_build_with_install_cookie_partial.

(** The toy project with a prefix and an install map. /d is the prefix and is empty but for something old where the program goes. The object goes to a directory that is not
    there yet. *)
Definition d_place : loc := [lit "d"].
Definition bob_place : loc := [lit "bob"; lit ".bob"; lit "proj"].
Definition ground_base : vfs := PropertiesInstall.place
  [([], VDir 1); ([lit "proj"], VDir 1); ([lit ".bob"; lit "proj"], VDir 1); (bob_place, VDir 1); (d_place, VDir 1)].
Definition d_map : list (bytes * bytes) := [(exe, lit "prog"); (a_o, lit "lib/a.o")].
Definition yard : env := Env 2 (fun _ => true) secs toy_deps toy_cc toy_ld
  (ground_installer PropertiesInstall.free_sys toy_out (lit "/d") PropertiesInstall.bob_dir bob_place d_place ground_base d_map) None.
Lemma yard_grounded : grounded PropertiesInstall.free_sys toy_out (lit "/d") PropertiesInstall.bob_dir bob_place d_place ground_base d_map.
Proof.
  constructor.
  - exact PropertiesInstall.free_tidy.
  - repeat constructor. vm_compute. intuition discriminate.
  - repeat constructor; try discriminate; vm_compute; intuition discriminate.
  - split; [vm_compute; reflexivity|]. exists 1%Z. vm_compute. reflexivity.
  - split; [vm_compute; reflexivity|]. exists 1%Z. vm_compute. reflexivity.
  - split; apply belowb_false; vm_compute; reflexivity.
  - apply belowb_iff. vm_compute. reflexivity.
  - split.
    + constructor; [|constructor; [intros []|constructor]]. intros [Q|[]]. discriminate Q.
    + intros k v [Q|[Q|[]]]; injection Q as <- <-; vm_compute; intuition discriminate.
  - intros k v [Q|[Q|[]]]; injection Q as <- <-; vm_compute; reflexivity.
  - repeat constructor; apply belowb_false; vm_compute; reflexivity.
Qed.
Definition yard0 : world := World (fs_set (files start) (lit "/d/prog") (File (lit "old") 0)) 1 [] [].
Definition yard1 : world := Eval vm_compute in world_of (after yard [lit "-O0"] yard0).
Definition yard2 : world := wait 5 (erase (lit "/d/lib/a.o") yard1).
Definition yard3 : world := Eval vm_compute in world_of (after yard [lit "-O0"] yard2).
Lemma d_area p : product_dir toy_out p -> ~ prefix_area (lit "/d") p.
Proof. intros (name & ->) (v & Q). discriminate Q. Qed.
Lemma not_d p : is_prefix (lit "/d/") p = false -> ~ prefix_area (lit "/d") p.
Proof. intros H (v & ->). assert (X : is_prefix (lit "/d/") (under_prefix (lit "/d") v) = true) by (apply is_prefix_app; now exists v). congruence. Qed.
Lemma d_source p : source (product_dir toy_out) nothing_installed p -> is_prefix (lit "/d/") p = false -> source (product_dir toy_out) (prefix_area (lit "/d")) p.
Proof. intros (A & _) H. split; [exact A|now apply not_d]. Qed.
Lemma yard_deps fl s f f' : (forall p, source (product_dir toy_out) (prefix_area (lit "/d")) p -> f p = f' p) -> cc_deps yard fl s f = cc_deps yard fl s f'.
Proof.
  intro H. cbn [cc_deps yard]. unfold toy_deps, Toy.content.
  rewrite (H a_c (d_source _ src_a eq_refl)), (H a_h (d_source _ src_h eq_refl)), (H b_c (d_source _ src_b eq_refl)). reflexivity.
Qed.
Lemma yard_obj fl s f f' : (forall p, source (product_dir toy_out) (prefix_area (lit "/d")) p -> f p = f' p) -> cc_obj yard fl s f = cc_obj yard fl s f'.
Proof.
  intro H. cbn [cc_obj yard]. unfold toy_cc, Toy.content.
  rewrite (H a_c (d_source _ src_a eq_refl)), (H a_h (d_source _ src_h eq_refl)), (H b_c (d_source _ src_b eq_refl)). reflexivity.
Qed.
Lemma yard_named : well_named true toy_out yard (prefix_area (lit "/d")) toy_srcs toy_links.
Proof.
  destruct (toy_named 2 secs) as [A B C D F]. constructor; auto.
  - intros s Hs. destruct (A s Hs) as (P & Q). split; [exact P|]. apply d_source; [exact Q|]. now destruct Hs as [-> | ->].
  - intros k l s L Hs. destruct (D k l s L Hs) as (P & [Q|Q]); [|auto]. split; [exact P|]. left. apply d_source; [exact Q|]. destruct L as [_ ->]. now destruct Hs as [<-|[<-|[]]].
Qed.
Lemma yard_script fl : Forall plain fl -> good_requests true toy_out (prefix_area (lit "/d")) toy_srcs toy_links (script fl).
Proof.
  intro Pl. destruct (script_good fl Pl) as [A B C]. constructor; auto. econstructor.
  - constructor. constructor; [apply a_o_ok|]. constructor; [apply b_o_ok|constructor].
  - constructor; [intros [X|[]]; discriminate X|]. constructor; [intros []|constructor].
  - intros c _ [].
  - constructor.
    + intros s [<-|[<-|[]]]; right; cbn; auto.
    + rewrite exe_ok. intros [X|[X|[]]]; discriminate X.
    + constructor.
Qed.
Lemma yard_goes o d : map_goes toy_out (lit "/d") d_map o = Some d -> (o = exe /\ d = lit "/d/prog") \/ (o = a_o /\ d = lit "/d/lib/a.o").
Proof.
  intro G. destruct (goes_spec toy_out (lit "/d") d_map o d G) as (c & v & _ & _ & [J|[J|[]]] & -> & _); injection J as <- <-; [left|right]; split; reflexivity.
Qed.
Lemma yard_waits w : (match files w (lit "/d/prog") with File _ t => Z.ltb t (secs (tick w)) | Dir _ => false | _ => true end) = true -> (match files w (lit "/d/lib/a.o") with File _ t => Z.ltb t (secs (tick w)) | Dir _ => false | _ => true end) = true ->
  (match files w exe, files w (lit "/d/prog") with File c t, File c' t' => Z.ltb t' t || bytes_eqb c' c | _, _ => true end) = true ->
  (match files w a_o, files w (lit "/d/lib/a.o") with File c t, File c' t' => Z.ltb t' t || bytes_eqb c' c | _, _ => true end) = true ->
  (match files w exe with Dir _ => false | _ => true end) = true -> (match files w a_o with Dir _ => false | _ => true end) = true ->
  forall o, awaiting (map_goes toy_out (lit "/d") d_map) (clock yard (tick w)) (files w) o.
Proof.
  intros A B C D F F' o d G. change (clock yard (tick w)) with (secs (tick w)). unfold unaltered.
  apply yard_goes in G as [(-> & ->)|(-> & ->)].
  - split; [|split].
    + split; [intros t Q; rewrite Q in A; discriminate|]. intros c t c' t' Q Q' L. rewrite Q, Q' in C. apply orb_prop in C as [C|C]; [lia|]. now apply bytes_eqb_eq in C.
    + intros c t Q. rewrite Q in A. lia.
    + intros t Q. rewrite Q in F. discriminate.
  - split; [|split].
    + split; [intros t Q; rewrite Q in B; discriminate|]. intros c t c' t' Q Q' L. rewrite Q, Q' in D. apply orb_prop in D as [D|D]; [lia|]. now apply bytes_eqb_eq in D.
    + intros c t Q. rewrite Q in B. lia.
    + intros t Q. rewrite Q in F'. discriminate.
Qed.
(** Everything is built and installed; then the installed object is deleted, and put back by a build that neither compiles nor links. *)
Example C32_ground_nonvacuous :
  grounded PropertiesInstall.free_sys toy_out (lit "/d") PropertiesInstall.bob_dir bob_place d_place ground_base d_map /\
  well_named true toy_out yard (prefix_area (lit "/d")) toy_srcs toy_links /\
  good_requests true toy_out (prefix_area (lit "/d")) toy_srcs toy_links (script [lit "-O0"]) /\
  (forall o, wanted_product true toy_out (script [lit "-O0"]) o -> awaiting (map_goes toy_out (lit "/d") d_map) (clock yard (tick yard0)) (files yard0) o) /\
  (forall o, wanted_product true toy_out (script [lit "-O0"]) o -> awaiting (map_goes toy_out (lit "/d") d_map) (clock yard (tick yard2)) (files yard2) o) /\
  build true toy_out yard (script [lit "-O0"]) yard0 0 yard1 /\ build true toy_out yard (script [lit "-O0"]) yard2 0 yard3 /\
  ran yard3 = ran yard2 /\ map (Toy.content (files yard3)) [lit "/d/prog"; lit "/d/lib/a.o"] = [Some (lit "-O0[Ah]-O0[B]"); Some (lit "-O0[Ah]")].
Proof.
  split; [exact yard_grounded|]. split; [exact yard_named|].
  split; [apply yard_script; repeat constructor; vm_compute; intuition discriminate|].
  split; [intros o _; apply yard_waits; vm_compute; reflexivity|]. split; [intros o _; apply yard_waits; vm_compute; reflexivity|].
  split; [apply after_build; vm_compute; reflexivity|]. split; [apply after_build; vm_compute; reflexivity|]. split; vm_compute; reflexivity.
Qed.
