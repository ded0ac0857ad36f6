(** * Bob's engine: its callbacks are tame and report failures. *)

From Coq Require Import ZArith Arith Ascii String Lia Bool List.
From Verif Require Import Base Hash Cookie FlAst FlState FlInterp FlMonad SpecFlamingo FlEqProofs SpecScript SpecFrame SpecScope SpecImport FlOpProofs FlFrame FlBalance FlErrorProofs Bob.
Import ListNotations.
Local Open Scope nat_scope.

Section Engine.
Variables (sg : bool) (out : bytes) (listing : bytes -> option (list bytes)) (pow : Z -> Z -> option Z) (exists_ : bytes -> bool) (files : bytes -> file).
Let cf := bob_conf sg out listing pow exists_ files.
Implicit Types s t : st bob.

(** ** Memory *)
Lemma bob_releases : releases_own cf.
Proof.
  intros d s. cbn. unfold free_state. destruct (nth_error (b_states (host s)) d) as [[a|]|]; [left; eauto|right; eexists; split; [reflexivity|discriminate]..].
Qed.

(** ** What the callbacks leave alone *)
Lemma fr_host h s : fr None true s (set_host h s).
Proof. constructor; cbn; auto; [|exists []; now rewrite app_nil_r]. intros i c E. exists c. repeat split; auto. exists []. now rewrite app_nil_r. Qed.
Lemma on_host_fr f s u s' : on_host f s = Ret u s' -> fr None true s s'.
Proof. unfold on_host. intro E. apply modify_inv in E. subst. apply fr_host. Qed.
Lemma str_at_same a s r s' : str_at a s = Ret r s' -> s' = s.
Proof. unfold str_at. intro E. inv1. inv1. destruct (c_val a0); try (inv1; reflexivity). inv1. same0. inv1. reflexivity. Qed.
Lemma fatal_not {A} msg s (r : A) s' : fatal msg s <> Ret r s'. Proof. discriminate. Qed.
Lemma one_vec_same who args s r s' : one_vec who args s = Ret r s' -> s' = s.
Proof. unfold one_vec. intro E. destruct args as [|a [|b args]]; try discriminate E. inv1. inv1. destruct (c_val a0); try discriminate E. inv1. reflexivity. Qed.
Lemma check_strs_same who : forall es i s r s', check_strs who i es s = Ret r s' -> s' = s.
Proof. induction es as [|a es IH]; intros i s r s' E; cbn [check_strs] in E; [inv1; reflexivity|]. inv1. inv1. destruct (c_val a0); try discriminate E. eauto. Qed.
Lemma need_same d s r s' : need d s = Ret r s' -> s' = s.
Proof. unfold need. destruct d; intro E; [now inv1|discriminate]. Qed.
Lemma objects_fr who : forall es i s r s', objects sg out who i es s = Ret r s' -> fr None true s s'.
Proof.
  induction es as [|a es IH]; intros i s r s' E; cbn [objects] in E; [inv1; apply fr_refl|]. inv1. apply str_at_same in E0 as ->. destruct a0 as [t|]; [|discriminate E].
  destruct (gen_cookie sg out t (lit "o")); try discriminate E. inv1. inv1. inv1. apply IH in E1. chain.
Qed.
Lemma strs_same who : forall es i s r s', strs who i es s = Ret r s' -> s' = s.
Proof.
  induction es as [|a es IH]; intros i s r s' E; cbn [strs] in E; [inv1; reflexivity|]. inv1. apply str_at_same in E0 as ->. destruct a0 as [t|]; [|discriminate E].
  inv1. inv1. eauto.
Qed.
Lemma prep_compile_fr d args s r s' : prep_compile sg out d args s = Ret r s' -> fr None true s s'.
Proof.
  unfold prep_compile. intro E. inv1. apply one_vec_same in E0 as ->. inv1. inv1. inv1. inv1. inv1. apply objects_fr in E0. apply alloc_fr in E1. apply need_same in E2 as ->. apply on_host_fr in E3. chain.
Qed.
Lemma prep_link_fr k d args s r s' : prep_link sg out k d args s = Ret r s' -> fr None true s s'.
Proof.
  unfold prep_link. intro E. inv1. apply one_vec_same in E0 as ->. inv1. apply strs_same in E0 as ->. inv1. inv1. inv1. inv1. apply need_same in E1 as ->. apply on_host_fr in E2. chain.
Qed.
Lemma fs_list_fr args s r s' : fs_list listing args s = Ret r s' -> fr None true s s'.
Proof.
  unfold fs_list. intro E. destruct args as [|a [|b args]]; try discriminate E. inv1. inv1. destruct (c_val a0); try discriminate E. inv1. same0. destruct (listing a1) as [l|]; [|discriminate E].
  inv1. match goal with Q : mapM _ _ _ = _ |- _ => apply mapM_fr in Q; [|intros; eapply make_str_fr; eauto] end. chain.
Qed.
Lemma data_of_same o s r s' : data_of o s = Ret r s' -> s' = s.
Proof. unfold data_of. destruct o; intro E; try discriminate E; now inv1. Qed.
Lemma class_call_fr k fa o args s r s' : class_call sg out listing k fa o args s = Ret r s' -> fr None true s s'.
Proof.
  unfold class_call. intro E. destruct k.
  - inv1. inv1. destruct (onat_eqb _ _); [|inv1; apply fr_refl]. inv1. inv1. eapply fs_list_fr; eauto.
  - inv1. apply data_of_same in E0 as ->. inv1. inv1. inv1. same0. destruct (bytes_eqb _ _); [|inv1; apply fr_refl]. inv1. inv1. eapply prep_compile_fr; eauto.
  - inv1. apply data_of_same in E0 as ->. inv1. inv1. inv1. same0. destruct (bytes_eqb _ _); [|destruct (bytes_eqb _ _); [|inv1; apply fr_refl]]; inv1; inv1; eapply prep_link_fr; eauto.
Qed.
Lemma try_classes_fr fa o args : forall ks s r s', try_classes sg out listing ks fa o args s = Ret r s' -> fr None true s s'.
Proof.
  induction ks as [|k ks IH]; intros s r s' E; cbn [try_classes] in E; [inv1; apply fr_refl|]. inv1. inv1. destruct (passed_over _ _ _); [eauto|]. inv1. match goal with Q : class_call _ _ _ _ _ _ _ _ = _ |- _ => apply class_call_fr in Q; rename Q into E0 end. split_match; [inv1; exact E0|].
  eapply fr_trans; eauto.
Qed.
Lemma owner_of_same fa s r s' : owner_of fa s = Ret r s' -> s' = s.
Proof. unfold owner_of. intro E. inv1. inv1. destruct (c_owner a); [|discriminate E]. inv1. inv1. destruct (sc_owner _); [|now inv1]. inv1. inv1. now inv1. Qed.
Lemma external_fr fa args s r s' : external_fn_cb sg out listing fa args s = Ret r s' -> fr None true s s'.
Proof.
  unfold external_fn_cb. intro E. inv1. apply owner_of_same in E0 as ->. inv1. apply try_classes_fr in E0. split_match; [inv1; exact E0|]. repeat inv1.
Qed.
Ltac use L := match goal with Q : _ = Ret _ _ |- _ => apply L in Q end.
Lemma class_decl_fr a s u s' : class_decl_cb a s = Ret u s' -> fr None true s s'.
Proof.
  unfold class_decl_cb. intro E. inv1. inv1. destruct (c_val a0); try discriminate E. inv1. same0. destruct (bytes_eqb _ _).
  - inv1. use on_host_fr. destruct (f_scope f); [|discriminate E]. inv1. inv1. use on_host_fr. chain.
  - destruct (bytes_eqb _ _); [eapply on_host_fr; eauto|]. destruct (bytes_eqb _ _); [eapply on_host_fr; eauto|]. inv1. apply fr_refl.
Qed.
Lemma instantiate_fr k inst args s u s' : instantiate k inst args s = Ret u s' -> fr None true s s'.
Proof.
  unfold instantiate. intro E. inv1. use one_vec_same. subst. inv1. use check_strs_same. subst. inv1. inv1. inv1. use on_host_fr. inv1. inv1.
  split_match. use @put_cell_fr. chain.
Qed.
Lemma class_inst_fr inst args s u s' : class_inst_cb inst args s = Ret u s' -> fr None true s s'.
Proof.
  unfold class_inst_cb. intro E. inv1. inv1. destruct (c_val _); try discriminate E. inv1. inv1. inv1. same0. destruct (bytes_eqb _ _); [eapply instantiate_fr; eauto|].
  destruct (bytes_eqb _ _); [eapply instantiate_fr; eauto|]. inv1. apply fr_refl.
Qed.
Lemma bob_tame : tame cf.
Proof.
  split; [exact external_fr|]. split; [intros a s s'; exact (class_decl_fr a s tt s')|]. split; [intros a args s s'; exact (class_inst_fr a args s tt s')|].
  intros d s s' E. destruct (bob_releases d s) as [(h & Q)|(u & Q & _)]; rewrite Q in E; [|discriminate E]. injection E as <-. apply fr_host.
Qed.

(** ** Failures *)
Definition told (h : bob) : Prop := b_log h <> [].
Local Notation snd_ := (sound cf told).
Lemma fatal_snd {A} msg : snd_ (@fatal A msg).
Proof. intros s N. cbn. left. unfold told. cbn. now destruct (b_log (host s)). Qed.
Lemma raise_snd {A} msg : snd_ (@raise bob A PROG msg).
Proof. exact (sound_error cf told msg). Qed.
Lemma on_host_snd f : snd_ (on_host f).
Proof. intros s N. exact N. Qed.
Lemma gets_snd {A} (f : st bob -> A) : snd_ (gets f). Proof. apply sound_gets. Qed.
Ltac go := repeat first
  [ assumption
  | match goal with |- sound _ _ (mbind _ _) => apply sound_bind; [|intro] end
  | match goal with |- sound _ _ (match ?x with _ => _ end) => destruct x end
  | apply fatal_snd | apply raise_snd | apply on_host_snd | apply gets_snd | apply sound_ret | apply sound_died | apply sound_undef
  | apply get_cell_snd | apply put_cell_snd | apply alloc_snd | apply make_str_snd | apply read_buf_snd | apply read_upto_snd | apply read_name_snd | apply get_scope_snd ].
Lemma one_vec_snd who args : snd_ (one_vec who args). Proof. unfold one_vec. go. Qed.
Lemma str_at_snd a : snd_ (str_at a). Proof. unfold str_at. go. Qed.
Lemma check_strs_snd who : forall es i, snd_ (check_strs who i es).
Proof. induction es as [|a es IH]; intro i; cbn [check_strs]; go. apply IH. Qed.
Lemma objects_snd who : forall es i, snd_ (objects sg out who i es).
Proof. induction es as [|a es IH]; intro i; cbn [objects]; go; [apply str_at_snd|apply IH]. Qed.
Lemma strs_snd who : forall es i, snd_ (strs who i es).
Proof. induction es as [|a es IH]; intro i; cbn [strs]; go; [apply str_at_snd|apply IH]. Qed.
Lemma need_snd d : snd_ (need d). Proof. unfold need. go. Qed.
Lemma prep_compile_snd d args : snd_ (prep_compile sg out d args).
Proof. unfold prep_compile. go; [apply one_vec_snd|apply objects_snd|apply need_snd]. Qed.
Lemma prep_link_snd k d args : snd_ (prep_link sg out k d args).
Proof. unfold prep_link. go; try apply one_vec_snd; try apply strs_snd; apply need_snd. Qed.
Lemma fs_list_snd args : snd_ (fs_list listing args).
Proof. unfold fs_list. go. apply mapM_snd. intro. go. Qed.
Lemma class_call_snd k fa o args : snd_ (class_call sg out listing k fa o args).
Proof. unfold class_call. destruct k; go; try apply fs_list_snd; try apply prep_compile_snd; try apply prep_link_snd; unfold data_of; go. Qed.
Lemma try_classes_snd fa o args : forall ks, snd_ (try_classes sg out listing ks fa o args).
Proof. induction ks as [|k ks IH]; cbn [try_classes]; go. apply class_call_snd. Qed.
Lemma external_snd fa args : snd_ (external_fn_cb sg out listing fa args).
Proof. unfold external_fn_cb. go; [unfold owner_of; go|apply try_classes_snd]. Qed.
Lemma class_decl_snd a : snd_ (class_decl_cb a).
Proof. unfold class_decl_cb. go. Qed.
Lemma instantiate_snd k inst args : snd_ (instantiate k inst args).
Proof. unfold instantiate. go; [apply one_vec_snd|apply check_strs_snd]. Qed.
Lemma class_inst_snd inst args : snd_ (class_inst_cb inst args).
Proof. unfold class_inst_cb. go; apply instantiate_snd. Qed.
Lemma free_state_snd d : snd_ (free_state d).
Proof. intros s N. unfold free_state. destruct (nth_error _ _) as [[a|]|]; cbn; auto. Qed.
Lemma sound_orderly {A} (m : M bob A) s : snd_ m -> err s = None -> orderly cf told (m s).
Proof. intros S N. specialize (S s N). destruct (m s); cbn; auto. Qed.
Lemma bob_reports : reports_failures cf told.
Proof.
  split; [intros; apply sound_orderly; auto; apply external_snd|]. split; [intros; apply sound_orderly; auto; apply class_decl_snd|].
  split; [intros; apply sound_orderly; auto; apply class_inst_snd|]. intros; apply sound_orderly; auto; apply free_state_snd.
Qed.
End Engine.
