(** * C32: build products named in the install map are installed by the build. *)

From Coq Require Import ZArith Arith Ascii String Lia Bool List.
From Verif Require Import Base FileSys Frugal Deps Log Cookie CookieProofs Build SpecBuild SpecHistory SpecFiles Plan SpecPlan SpecDeliver DeliverProofs Drive Toy.
Import ListNotations.
Local Open Scope nat_scope.

(** When a build for an install succeeds, each product that the map sends somewhere is there, with the content it has in the output directory, whether it was made
    again or found up to date, in every schedule. [goes] is what the map says, and [delivers] what installing one product does: PropertiesInstall has that for
    [install_cookie] (C32_product_copied_partial). Missing: destinations changed since the last installation, or in the very second the build starts ([awaiting]);
    products the map names by another spelling (C32_spelling_refuted). *)
Theorem C32_build_installs_products_partial :
  forall sg out E inst_area srcs links goes rs w w',
  good_env E (product_dir out) inst_area -> monotone (clock E) -> well_named sg out E inst_area srcs links -> delivers E goes ->
  (forall o d, goes o = Some d -> inst_area d) -> good_requests sg out inst_area srcs links rs ->
  (forall o, wanted_product sg out rs o -> awaiting goes (clock E (tick w)) (files w) o) ->
  build sg out E rs w 0 w' ->
  forall o d, wanted_product sg out rs o -> goes o = Some d -> exists c t t', files w' o = File c t /\ files w' d = File c t'.
Proof. intros sg out E ia srcs links goes rs w w' GE MO WN DL DI GR Aw B o d W. exact (build_delivers sg out E ia srcs links goes rs w w' GE MO WN DL DI GR Aw B o W d). Qed.
Print Assumptions C32_build_installs_products_partial.

(** The toy project with an install map: the program and one of the objects go to /d. *)
Definition shop_goes (o : bytes) : option bytes :=
  if bytes_eqb o exe then Some (lit "/d/prog") else if bytes_eqb o a_o then Some (lit "/d/a.o") else None.
Definition shop_installer (o : bytes) (t : Z) (f : fs) : bool * fs :=
  match shop_goes o with
  | None => (true, f)
  | Some d =>
    match f o with
    | File c tau => if match f d with File _ t' => Z.leb tau t' | _ => false end then (true, f) else (true, fs_set f d (File c t))
    | _ => (false, f)
    end
  end.
Definition shop : env := Env 2 (fun _ => true) secs toy_deps toy_cc toy_ld shop_installer None.
Definition shelf (p : bytes) : Prop := p = lit "/d/prog" \/ p = lit "/d/a.o".
Lemma shop_goes_inv o d : shop_goes o = Some d -> (o = exe /\ d = lit "/d/prog") \/ (o = a_o /\ d = lit "/d/a.o").
Proof.
  unfold shop_goes. destruct (bytes_eqb o exe) eqn:Q; [intro H; injection H as <-; apply bytes_eqb_eq in Q; auto|]. destruct (bytes_eqb o a_o) eqn:Q'; [|discriminate].
  intro H; injection H as <-; apply bytes_eqb_eq in Q'; auto.
Qed.
Lemma shop_delivers : delivers shop shop_goes.
Proof.
  constructor.
  - intros o d t f f' c tau G (_ & U) F I. cbn in I. unfold shop_installer in I. rewrite G, F in I. destruct (f d) as [|c' t'|t'|] eqn:D; try (injection I as <-; exists t; apply fs_set_same).
    destruct (Z.leb tau t') eqn:L; injection I as <-; [|exists t; apply fs_set_same]. exists t'. rewrite D. f_equal. apply (U c tau c' t' F eq_refl). lia.
  - intros o o' d t f N G. cbn. unfold shop_installer. destruct (shop_goes o) as [d'|] eqn:G'; [|reflexivity]. destruct (f o); try reflexivity.
    assert (X : forall e, fs_set f d' e d = f d).
    { intro e. apply fs_set_diff. apply shop_goes_inv in G as [(-> & ->)|(-> & ->)]; apply shop_goes_inv in G' as [(-> & ->)|(-> & ->)]; try (now destruct N); discriminate. }
    destruct (f d') as [|c' t'|t'|]; try apply X. destruct (Z.leb t0 t'); [reflexivity|apply X].
Qed.
Lemma shop_source p : source (product_dir toy_out) nothing_installed p -> ~ shelf p -> source (product_dir toy_out) shelf p.
Proof. intros (A & _) B. split; auto. Qed.
Lemma not_shelf x : negb (bytes_eqb x (lit "/d/prog")) && negb (bytes_eqb x (lit "/d/a.o")) = true -> ~ shelf x.
Proof. intros H [-> | ->]; cbn in H; discriminate. Qed.
Lemma shop_good_env : good_env shop (product_dir toy_out) shelf.
Proof.
  constructor; cbn [ncpus installer cc_deps cc_obj shop]; auto.
  - intros p (name & ->) [H|H]; discriminate.
  - intros o t f p N. unfold shop_installer. destruct (shop_goes o) as [d|] eqn:G; [|reflexivity]. destruct (f o); try reflexivity.
    assert (X : forall e, fs_set f d e p = f p). { intro e. apply fs_set_diff. intros ->. apply N. apply shop_goes_inv in G as [(_ & ->)|(_ & ->)]; [now left|now right]. }
    destruct (f d) as [|c' t'|t'|]; try apply X. destruct (Z.leb t0 t'); [reflexivity|apply X].
  - intros fl s f f' H. unfold toy_deps, content.
    rewrite (H a_c (shop_source _ src_a (not_shelf a_c eq_refl))), (H a_h (shop_source _ src_h (not_shelf a_h eq_refl))), (H b_c (shop_source _ src_b (not_shelf b_c eq_refl))). reflexivity.
  - intros fl s f f' H. unfold toy_cc, content.
    rewrite (H a_c (shop_source _ src_a (not_shelf a_c eq_refl))), (H a_h (shop_source _ src_h (not_shelf a_h eq_refl))), (H b_c (shop_source _ src_b (not_shelf b_c eq_refl))). reflexivity.
Qed.
Lemma shop_named : well_named true toy_out shop shelf toy_srcs toy_links.
Proof.
  destruct (toy_named 2 secs) as [A B C D F]. constructor; auto.
  - intros s Hs. destruct (A s Hs) as (P & Q). split; [exact P|]. apply shop_source; [exact Q|]. apply not_shelf. now destruct Hs as [-> | ->].
  - intros k l s L Hs. destruct (D k l s L Hs) as (P & [Q|Q]); [|auto]. split; [exact P|]. left. apply shop_source; [exact Q|]. apply not_shelf. destruct L as [_ ->]. now destruct Hs as [<-|[<-|[]]].
Qed.
Lemma shop_script fl : Forall plain fl -> good_requests true toy_out shelf toy_srcs toy_links (script fl).
Proof.
  intro Pl. destruct (script_good fl Pl) as [A B C]. constructor; auto. econstructor.
  - constructor. constructor; [apply a_o_ok|]. constructor; [apply b_o_ok|constructor].
  - constructor; [intros [X|[]]; discriminate X|]. constructor; [intros []|constructor].
  - intros c _ [].
  - constructor.
    + intros s [<-|[<-|[]]]; right; cbn; auto.
    + rewrite exe_ok. intros [X|[X|[]]]; discriminate X.
    + constructor.
Qed.
(** The program's destination has something old; then everything is built. Then the object's destination is deleted, and nothing has to be compiled or linked. *)
Definition shop0 : world := World (fs_set (files start) (lit "/d/prog") (File (lit "old") 0)) 1 [] [].
Definition shop1 : world := Eval vm_compute in world_of (after shop [lit "-O0"] shop0).
Definition shop2 : world := wait 5 (erase (lit "/d/a.o") shop1).
Definition shop3 : world := Eval vm_compute in world_of (after shop [lit "-O0"] shop2).
Lemma awaits w : (match files w (lit "/d/prog") with File _ t => Z.ltb t (secs (tick w)) | Dir _ => false | _ => true end) = true -> (match files w (lit "/d/a.o") with File _ t => Z.ltb t (secs (tick w)) | Dir _ => false | _ => true end) = true ->
  (match files w exe, files w (lit "/d/prog") with File c t, File c' t' => Z.ltb t' t || bytes_eqb c' c | _, _ => true end) = true ->
  (match files w a_o, files w (lit "/d/a.o") with File c t, File c' t' => Z.ltb t' t || bytes_eqb c' c | _, _ => true end) = true ->
  (match files w exe with Dir _ => false | _ => true end) = true -> (match files w a_o with Dir _ => false | _ => true end) = true ->
  forall o, wanted_product true toy_out (script [lit "-O0"]) o -> awaiting shop_goes (clock shop (tick w)) (files w) o.
Proof.
  intros A B C D F F' o _ d G. change (clock shop (tick w)) with (secs (tick w)). unfold unaltered.
  apply shop_goes_inv in G as [(-> & ->)|(-> & ->)].
  - split; [|split].
    + split; [intros t Q; rewrite Q in A; discriminate|]. intros c t c' t' Q Q' L. rewrite Q, Q' in C. apply orb_prop in C as [C|C]; [lia|]. now apply bytes_eqb_eq in C.
    + intros c t Q. rewrite Q in A. lia.
    + intros t Q. rewrite Q in F. discriminate.
  - split; [|split].
    + split; [intros t Q; rewrite Q in B; discriminate|]. intros c t c' t' Q Q' L. rewrite Q, Q' in D. apply orb_prop in D as [D|D]; [lia|]. now apply bytes_eqb_eq in D.
    + intros c t Q. rewrite Q in B. lia.
    + intros t Q. rewrite Q in F'. discriminate.
Qed.
Example C32_build_nonvacuous :
  good_env shop (product_dir toy_out) shelf /\ monotone (clock shop) /\ well_named true toy_out shop shelf toy_srcs toy_links /\ delivers shop shop_goes /\
  good_requests true toy_out shelf toy_srcs toy_links (script [lit "-O0"]) /\
  (forall o, wanted_product true toy_out (script [lit "-O0"]) o -> awaiting shop_goes (clock shop (tick shop0)) (files shop0) o) /\
  (forall o, wanted_product true toy_out (script [lit "-O0"]) o -> awaiting shop_goes (clock shop (tick shop2)) (files shop2) o) /\
  build true toy_out shop (script [lit "-O0"]) shop0 0 shop1 /\ build true toy_out shop (script [lit "-O0"]) shop2 0 shop3 /\
  ran shop3 = ran shop2 /\ map (content (files shop3)) [lit "/d/prog"; lit "/d/a.o"] = [Some (lit "-O0[Ah]-O0[B]"); Some (lit "-O0[Ah]")].
Proof.
  split; [exact shop_good_env|]. split; [exact secs_monotone|]. split; [exact shop_named|]. split; [exact shop_delivers|].
  split; [apply shop_script; repeat constructor; vm_compute; intuition discriminate|].
  split; [apply awaits; vm_compute; reflexivity|]. split; [apply awaits; vm_compute; reflexivity|].
  split; [apply after_build; vm_compute; reflexivity|]. split; [apply after_build; vm_compute; reflexivity|]. split; vm_compute; reflexivity.
Qed.
