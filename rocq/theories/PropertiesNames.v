(** * C01 - C04: names of products and side files. *)

From Coq Require Import ZArith Ascii String Lia Bool List Permutation.
From Verif Require Import Base Hash Cookie SpecNames CookieProofs.
Import ListNotations.

(** ** C01 *)

Theorem C01_products_in_out_dir :
  forall sg out path c, gen_cookie sg out path (lit "o") = Ok c -> direct_child (out ++ lit "/bob") c.
Proof. intros sg out path c. apply gen_cookie_direct; [apply not_in_lit_dec; reflexivity | discriminate]. Qed.
Print Assumptions C01_products_in_out_dir.

Theorem C01_link_products_in_out_dir :
  forall sg out k srcs, direct_child (out ++ lit "/bob") (link_cookie sg out k srcs).
Proof. exact link_cookie_direct. Qed.
Print Assumptions C01_link_products_in_out_dir.

(** Every path a script can name (no NUL byte) gets a name. *)
Theorem C01_naming_total :
  forall sg out path, nul_free path -> exists c, gen_cookie sg out path (lit "o") = Ok c.
Proof.
  intros sg out path H. eexists. apply gen_cookie_ok; auto. apply not_in_lit_dec; reflexivity.
Qed.
Print Assumptions C01_naming_total.

Example C01_nonvacuous :
  gen_cookie true (lit ".bob") (lit "/etc/../x/y.c") (lit "o") = Ok (lit ".bob/bob/_etc_.._x_y.c.cookie.f71d1856f67d77b.o").
Proof. vm_compute. reflexivity. Qed.

(** ** C02 *)

(** Two different paths may share an object file only if they differ in two places at least twelve bytes
    apart. Missing from the full statement: paths that do differ that far apart (refuted below). *)
Theorem C02_distinct_sources_partial :
  forall sg out p q c, nul_free p -> nul_free q -> p <> q ->
  gen_cookie sg out p (lit "o") = Ok c -> gen_cookie sg out q (lit "o") = Ok c ->
  exists i j, (i + 12 <= j)%nat /\ differ_at p q i /\ differ_at p q j.
Proof. intros sg out p q c. apply cookie_far_apart. apply not_in_lit_dec; reflexivity. Qed.
Print Assumptions C02_distinct_sources_partial.

(** Colliding paths are equal up to exchanging '/' and '_', and have the same length. *)
Theorem C02_collision_shape_partial :
  forall sg out p q c i, nul_free p -> nul_free q ->
  gen_cookie sg out p (lit "o") = Ok c -> gen_cookie sg out q (lit "o") = Ok c ->
  nth_error p i = nth_error q i \/
  (nth_error p i = Some SLASH /\ nth_error q i = Some USCORE) \/
  (nth_error p i = Some USCORE /\ nth_error q i = Some SLASH).
Proof. exact cookie_swap. Qed.
Print Assumptions C02_collision_shape_partial.

Theorem C02_short_paths_partial :
  forall sg out p q c, nul_free p -> nul_free q -> (length p <= 12)%nat ->
  gen_cookie sg out p (lit "o") = Ok c -> gen_cookie sg out q (lit "o") = Ok c -> p = q.
Proof. intros sg out p q c. apply cookie_short_distinct. apply not_in_lit_dec; reflexivity. Qed.
Print Assumptions C02_short_paths_partial.


Theorem C02_distinct_sources_refuted :
  exists p q c, p <> q /\ nul_free p /\ nul_free q /\
  forall sg, gen_cookie sg (lit ".bob") p (lit "o") = Ok c /\ gen_cookie sg (lit ".bob") q (lit "o") = Ok c.
Proof. exact cookie_collision. Qed.
Print Assumptions C02_distinct_sources_refuted.

(** ** C03 *)

Theorem C03_side_files_distinct :
  forall k1 k2 c1 c2, side_file k1 c1 = side_file k2 c2 -> k1 = k2 /\ c1 = c2.
Proof. exact side_file_inj. Qed.
Print Assumptions C03_side_files_distinct.

Theorem C03_side_not_object :
  forall sg out src c k c', gen_cookie sg out src (lit "o") = Ok c -> side_file k c' <> c.
Proof. intros. eapply side_not_product. econstructor; eauto. Qed.
Print Assumptions C03_side_not_object.

Theorem C03_side_not_link_product :
  forall sg out lk srcs k c', side_file k c' <> link_cookie sg out lk srcs.
Proof. intros. eapply side_not_product. constructor. Qed.
Print Assumptions C03_side_not_link_product.

Theorem C03_object_not_link_product :
  forall sg out src c k srcs, gen_cookie sg out src (lit "o") = Ok c -> c <> link_cookie sg out k srcs.
Proof. exact obj_not_link. Qed.
Print Assumptions C03_object_not_link_product.

Example C03_nonvacuous :
  side_file SFlags (lit "a.o") = lit "a.o.flags" /\ side_file SDeps (lit "a.o") = lit "a.o.deps" /\
  side_file SLog (lit "a.o") = lit "a.o.log".
Proof. repeat split. Qed.

(** ** C04 *)

Theorem C04_link_name_order_independent :
  forall sg out k a b, Permutation a b -> link_cookie sg out k a = link_cookie sg out k b.
Proof. exact link_cookie_perm. Qed.
Print Assumptions C04_link_name_order_independent.

(** Linking and archiving never share a product, and replacing one input by an input with another hash
    always changes the product. Missing: inputs lists that are not related in this way (refuted below). *)
Theorem C04_kinds_distinct :
  forall sg out a b, link_cookie sg out Link a <> link_cookie sg out Archive b.
Proof. intros sg out a b E. apply link_cookie_inv in E. destruct E. discriminate. Qed.
Print Assumptions C04_kinds_distinct.

Theorem C04_one_input_changed_partial :
  forall sg out k pre post x y,
  link_cookie sg out k (pre ++ x :: post) = link_cookie sg out k (pre ++ y :: post) -> str_hash sg x = str_hash sg y.
Proof. exact link_one_changed. Qed.
Print Assumptions C04_one_input_changed_partial.

(** Adding one input to a link, or removing one, always changes the product unless that input hashes to 0. *)
Theorem C04_one_input_added_partial :
  forall sg out k pre post x,
  link_cookie sg out k (pre ++ x :: post) = link_cookie sg out k (pre ++ post) -> str_hash sg x = 0%Z.
Proof. exact link_one_added. Qed.
Print Assumptions C04_one_input_added_partial.

(** Equal inputs cancel out: listing an object twice is like not listing it. *)
Theorem C04_different_inputs_refuted :
  exists a b, ~ Permutation a b /\ (forall x, In x a -> x <> []) /\ (forall x, In x b -> x <> []) /\
  forall sg out k, link_cookie sg out k a = link_cookie sg out k b.
Proof.
  exists [lit "a.o"; lit "b.o"; lit "b.o"], [lit "a.o"; lit "c.o"; lit "c.o"].
  split; [|split; [|split]].
  - intros P. assert (In (lit "b.o") [lit "a.o"; lit "c.o"; lit "c.o"]).
    { eapply Permutation_in; [exact P|]. simpl; auto. }
    simpl in H. repeat (destruct H as [H|H]; [discriminate|]). auto.
  - intros x H. simpl in H. repeat (destruct H as [<-|H]; [discriminate|]). destruct H.
  - intros x H. simpl in H. repeat (destruct H as [<-|H]; [discriminate|]). destruct H.
  - intros sg out k. unfold link_cookie, link_hash. cbn [fold_left]. rewrite !Z.lxor_assoc, !Z.lxor_nilpotent. reflexivity.
Qed.
Print Assumptions C04_different_inputs_refuted.

Example C04_nonvacuous :
  link_cookie true (lit ".bob") Link [lit "a.o"; lit "b.o"] = link_cookie true (lit ".bob") Link [lit "b.o"; lit "a.o"] /\
  link_cookie true (lit ".bob") Link [lit "a.o"; lit "b.o"] <> link_cookie true (lit ".bob") Link [lit "a.o"; lit "c.o"].
Proof. split; vm_compute; [reflexivity | discriminate]. Qed.
