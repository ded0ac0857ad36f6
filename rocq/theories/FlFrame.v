(** * Evaluation leaves the stacks of scopes and the names in them alone. *)

From Coq Require Import ZArith Arith Ascii String Lia Bool List Permutation.
From Verif Require Import Base FlAst FlState FlInterp FlMonad SpecFrame.
Import ListNotations.
Local Open Scope nat_scope.

Create HintDb fr.

Section Frame.
Context {H : Type}.
Variable cf : conf H.
Notation fr := (@fr H).

Lemma fr_refl t r s : fr t r s s.
Proof.
  constructor; auto; try lia.
  - intros i c E. exists c. repeat split; auto. exists []. now rewrite app_nil_r.
  - exists []. now rewrite app_nil_r.
Qed.

Lemma fr_weak t r s s' : fr None true s s' -> fr t r s s'.
Proof.
  intros [F1 F2 F3 F4 F5 F6 F7 F8 F9 F10 F11]. constructor; auto. intros i c E. destruct (F4 i c E) as (c' & E' & (new & N) & D & O & K & A). exists c'. repeat split; auto.
  - exists []. rewrite app_nil_r. apply D. discriminate.
  - intro. apply D. discriminate.
Qed.
Lemma fr_top t r s s' : fr None r s s' -> fr t r s s'.
Proof.
  intros [F1 F2 F3 F4 F5 F6 F7 F8 F9 F10 F11]. constructor; auto. intros i c E. destruct (F4 i c E) as (c' & E' & (new & N) & D & O & K & A). exists c'. repeat split; auto.
  - exists []. rewrite app_nil_r. apply D. discriminate.
  - intro. apply D. discriminate.
Qed.
Lemma fr_loud t r s s' : fr t true s s' -> fr t r s s'.
Proof. intros []. constructor; auto. Qed.

Lemma fr_trans t r s s1 s2 : fr t r s s1 -> fr t r s1 s2 -> fr t r s s2.
Proof.
  intros [F1 F2 F3 F4 F5 F6 F7 F8 F9 F10 F11] [G1 G2 G3 G4 G5 G6 G7 G8 G9 G10 G11]. constructor; try congruence; try lia; eauto.
  - intros i c E. destruct (F4 i c E) as (c' & E' & (new & N) & D & O & K & A). destruct (G4 i c' E') as (c2 & E2 & (new2 & N2) & D2 & O2 & K2 & A2).
    exists c2. repeat split; auto; try congruence.
    + exists (new ++ new2). rewrite N2, N. now rewrite app_assoc.
    + intro Q. rewrite D2, D; auto.
  - destruct F8 as (l & E). destruct G8 as (l' & E'). exists (l ++ l'). rewrite E', E. now rewrite app_assoc.
Qed.

(** Changes to one component. *)
Lemma fr_set_cells x s : length (cells s) <= length x -> fr None true s (set_cells x s).
Proof. intro L. destruct (fr_refl None true s). constructor; auto. Qed.
Lemma fr_set_bufs x s : length (bufs s) <= length x -> fr None true s (set_bufs x s).
Proof. intro L. destruct (fr_refl None true s). constructor; auto. Qed.
Lemma fr_set_bodies x s : length (bodies s) <= length x -> fr None true s (set_bodies x s).
Proof. intro L. destruct (fr_refl None true s). constructor; auto. Qed.
Lemma fr_put_cell a c s s' : put_cell a c s = Ret tt s' -> fr None true s s'.
Proof. intro E. unfold put_cell in E. apply modify_inv in E. subst. apply fr_set_cells. rewrite upd_length. lia. Qed.

Definition decl_same (c c' : scope) : Prop := declared c' = declared c /\ sc_owner c' = sc_owner c /\ sc_class c' = sc_class c /\ (sc_alive c' = true -> sc_alive c = true).
Lemma fr_put_scope i c c' s : nth_error (scopes s) i = Some c -> decl_same c c' -> fr None true s (set_scopes (upd i c' (scopes s)) s).
Proof.
  intros E (D & O & K & A). destruct (fr_refl None true s). constructor; auto. intros j cj Ej. cbn. destruct (Nat.eq_dec i j) as [<-|N].
  - rewrite E in Ej. injection Ej as <-. exists c'. rewrite upd_same by (eapply nth_lt; eauto). repeat split; auto. exists []. now rewrite app_nil_r.
  - exists cj. rewrite upd_other by auto. repeat split; auto. exists []. now rewrite app_nil_r.
Qed.
Lemma fr_add_scope s : fr None true s (set_scopes (scopes s ++ [Scope [] None false true]) s).
Proof.
  destruct (fr_refl None true s). constructor; auto. intros j cj Ej. cbn. exists cj. split; [now apply nth_app_l|]. repeat split; auto. exists []. now rewrite app_nil_r.
Qed.
Lemma fr_add_env l s : fr None true s (set_envs (envs s ++ [l]) s).
Proof. destruct (fr_refl None true s). constructor; auto. intros i l' E. now apply nth_app_l. Qed.

(** ** Taking runs apart *)
Ltac split_match :=
  match goal with
  | E : (match ?x with _ => _ end) _ = Ret _ _ |- _ => destruct x eqn:?
  | E : (match ?x with _ => _ end) = Ret _ _ |- _ => destruct x eqn:?
  | E : (let (_, _) := ?x in _) _ = Ret _ _ |- _ => destruct x eqn:?
  end; try discriminate.
Ltac take := repeat (inv1 || split_match); try discriminate.
(** Use hypotheses that are frames already, or runs that are known to be. *)
Ltac next1 :=
  match goal with
  | |- SpecFrame.fr _ _ ?s ?s => apply fr_refl
  | F : SpecFrame.fr _ _ ?s ?s' |- SpecFrame.fr _ _ ?s ?s' => first [exact F | apply fr_weak; exact F | apply fr_top; exact F | apply fr_loud; exact F]
  | F : SpecFrame.fr _ _ ?s ?s1 |- SpecFrame.fr _ _ ?s ?s' => eapply fr_trans; [first [exact F | apply fr_weak; exact F | apply fr_top; exact F | apply fr_loud; exact F]|]; clear F
  | |- SpecFrame.fr _ _ ?s (set_cells _ ?s) => apply fr_weak; apply fr_set_cells; rewrite ?app_length, ?upd_length; lia
  | |- SpecFrame.fr _ _ ?s (set_bufs _ ?s) => apply fr_weak; apply fr_set_bufs; rewrite ?app_length, ?upd_length; lia
  | |- SpecFrame.fr _ _ ?s (set_bodies _ ?s) => apply fr_weak; apply fr_set_bodies; rewrite ?app_length, ?upd_length; lia
  | E : _ (set_cells (cells ?s ++ ?l) ?s) = Ret _ _ |- SpecFrame.fr _ _ ?s _ =>
    eapply fr_trans; [apply fr_weak; apply (fr_set_cells (cells s ++ l)); rewrite app_length; lia|]
  | E : ?m ?s = Ret _ ?s1 |- SpecFrame.fr _ _ ?s ?s' =>
    eapply fr_trans; [apply fr_weak; solve [eauto 3 with fr]|]; clear E
  end.
Ltac chain := repeat next1.

Lemma get_cell_fr a s c s' : get_cell a s = Ret c s' -> fr None true s s'.
Proof. intro E. apply get_cell_inv in E as (-> & _). apply fr_refl. Qed.
Lemma get_scope_fr a s c s' : get_scope a s = Ret c s' -> fr None true s s'.
Proof. intro E. apply get_scope_inv in E as (-> & _). apply fr_refl. Qed.
Lemma alloc_fr p s a s' : alloc p s = Ret a s' -> fr None true s s'.
Proof. intro E. apply alloc_inv in E as (_ & ->). apply fr_set_cells. rewrite app_length. lia. Qed.
Lemma new_buf_fr p s a s' : new_buf p s = Ret a s' -> fr None true s s'.
Proof. intro E. apply new_buf_inv in E as (_ & ->). apply fr_set_bufs. rewrite app_length. lia. Qed.
Lemma new_body_fr p s a s' : new_body p s = Ret a s' -> fr None true s s'.
Proof. intro E. apply new_body_inv in E as (_ & ->). apply fr_set_bodies. rewrite app_length. lia. Qed.
Lemma put_cell_fr a c s u s' : put_cell a c s = Ret u s' -> fr None true s s'.
Proof. destruct u. apply fr_put_cell. Qed.
Lemma read_buf_same b k (s : st H) t s' : read_buf b k s = Ret t s' -> s' = s.
Proof. unfold read_buf. intro E. take. now injection E as _ <-. Qed.
Lemma read_upto_same b k (s : st H) t s' : read_upto b k s = Ret t s' -> s' = s.
Proof. unfold read_upto. intro E. take. now injection E as _ <-. Qed.
Lemma read_name_same b (s : st H) t s' : read_name b s = Ret t s' -> s' = s.
Proof. unfold read_name. intro E. take; now injection E as _ <-. Qed.
Lemma read_body_same b (s : st H) t s' : read_body b s = Ret t s' -> s' = s.
Proof. unfold read_body. intro E. take. now injection E as _ <-. Qed.
Lemma no_rv_same (s : st H) t s' : no_rv s = Ret t s' -> s' = s /\ cur_rv s = None.
Proof. unfold no_rv. intro E. take. now injection E as _ <-. Qed.
Lemma make_str_fr p s a s' : make_str p s = Ret a s' -> fr None true s s'.
Proof.
  unfold make_str. intro E. apply bind_ret_inv in E as (b & s1 & E1 & E). apply new_buf_fr in E1. apply alloc_fr in E. eapply fr_trans; eauto.
Qed.
Lemma incref_fr a s u s' : incref a s = Ret u s' -> fr None true s s'.
Proof.
  unfold incref. intro E. apply bind_ret_inv in E as (c & s1 & E1 & E). apply get_cell_inv in E1 as (-> & _).
  apply bind_ret_inv in E as (c1 & s1 & E1 & E). apply assert_inv in E1 as (_ & ->). eapply put_cell_fr; eauto.
Qed.
Hint Resolve get_cell_fr get_scope_fr alloc_fr new_buf_fr new_body_fr put_cell_fr make_str_fr incref_fr : fr.

(** Runs that leave the state as it is. *)
Ltac same_with L := match goal with E : _ _ = Ret _ _ |- _ => apply L in E; subst end.
Ltac same0 := first [same_with read_buf_same | same_with read_upto_same | same_with read_name_same | same_with read_body_same].

Lemma all2_same {A} (eq : A -> A -> M H bool) : (forall x y s b s', eq x y s = Ret b s' -> s' = s) -> forall xs ys s b s', all2 eq xs ys s = Ret b s' -> s' = s.
Proof.
  intros Eq. induction xs as [|x xs IH]; intros [|y ys] s b s' E; cbn in E; take; auto.
  - apply Eq in E0. subst. eauto.
  - eapply Eq; eauto.
Qed.
Lemma map_find_same {A} (eq : A -> A -> M H bool) k v : (forall x y s b s', eq x y s = Ret b s' -> s' = s) -> forall ys s b s', map_find eq k v ys s = Ret b s' -> s' = s.
Proof.
  intros Eq. induction ys as [|[k' v'] ys IH]; intros s b s' E; cbn in E; take; auto.
  - apply Eq in E0. apply Eq in E. congruence.
  - apply Eq in E0. apply IH in E. congruence.
Qed.
Lemma map_all_same {A} (eq : A -> A -> M H bool) ys : (forall x y s b s', eq x y s = Ret b s' -> s' = s) -> forall xs s b s', map_all eq xs ys s = Ret b s' -> s' = s.
Proof.
  intros Eq. induction xs as [|[k v] xs IH]; intros s b s' E; cbn in E; take; auto.
  - eapply map_find_same in E0; eauto. apply IH in E. congruence.
  - eapply map_find_same; eauto.
Qed.
Lemma val_eq_same : forall n x y (s : st H) b s', val_eq n x y s = Ret b s' -> s' = s.
Proof.
  induction n as [|n IH]; intros x y s b s' E; cbn in E; take; auto.
  - repeat same0. auto.
  - eapply all2_same; eauto.
  - eapply map_all_same; eauto.
Qed.
Lemma mapM_same {A B} (f : A -> M H B) : (forall x s b s', f x s = Ret b s' -> s' = s) -> forall xs s b s', mapM f xs s = Ret b s' -> s' = s.
Proof. intro F. induction xs as [|x xs IH]; intros s b s' E; cbn in E; take; auto. apply F in E0. apply IH in E1. congruence. Qed.
Lemma repr_same : forall n i x (s : st H) b s', repr n i x s = Ret b s' -> s' = s.
Proof.
  induction n as [|n IH]; intros i x s b s' E; cbn in E; take; auto; try (eapply read_upto_same; eassumption); try (eapply read_name_same; eassumption).
  - eapply mapM_same; [|eassumption]. eauto.
  - eapply mapM_same; [|eassumption]. cbn. intros. take. repeat same_with IH. auto.
Qed.

Lemma mapM_fr {A B} (f : A -> M H B) : (forall x s b s', f x s = Ret b s' -> fr None true s s') -> forall xs s b s', mapM f xs s = Ret b s' -> fr None true s s'.
Proof. intro F. induction xs as [|x xs IH]; intros s b s' E; cbn in E; take; auto; [apply fr_refl|]. apply F in E0. apply IH in E1. chain. Qed.
Lemma iterM_fr {A} t r (f : A -> M H unit) : (forall x s b s', f x s = Ret b s' -> fr t r s s') -> forall xs s b s', iterM f xs s = Ret b s' -> fr t r s s'.
Proof. intro F. induction xs as [|x xs IH]; intros s b s' E; cbn in E; take; auto; [apply fr_refl|]. apply F in E0. apply IH in E. chain. Qed.

Lemma val_copy_fr a s b s' : val_copy a s = Ret b s' -> fr None true s s'.
Proof.
  unfold val_copy. intro E. apply bind_ret_inv in E as (c & s1 & E1 & E). apply get_cell_inv in E1 as (-> & _).
  apply bind_ret_inv in E as (x & s1 & E1 & E). assert (s1 = s) by (take; repeat same0; auto). clear E1. subst s1.
  apply bind_ret_inv in E as (p & s1 & E2 & E). assert (F : fr None true s s1).
  { take; try apply fr_refl. repeat same0. apply fr_set_bufs. rewrite app_length. lia. }
  injection E as <- <-. eapply fr_trans; [exact F|]. apply fr_set_cells. rewrite app_length. lia.
Qed.
Hint Resolve val_copy_fr : fr.

Lemma upd_decl (vs : list var) j v v' : nth_error vs j = Some v -> v_key v' = v_key v -> v_static v' = v_static v ->
  map (fun v => (v_key v, v_static v)) (upd j v' vs) = map (fun v => (v_key v, v_static v)) vs.
Proof.
  revert j. induction vs as [|x vs IH]; intros [|j] E K S; cbn in *; try discriminate; auto.
  - injection E as ->. now rewrite K, S.
  - f_equal. eapply IH; eauto.
Qed.
Lemma write_var_fr i j a s u s' : write_var i j a s = Ret u s' -> fr None true s s'.
Proof.
  unfold write_var, put_scope. intro E. take. eapply fr_put_scope; [eassumption|]. repeat split; cbn; auto. unfold declared. cbn. eapply upd_decl; eauto.
Qed.
Hint Resolve write_var_fr : fr.
Lemma var_set_val_fr i j a s u s' : var_set_val i j a s = Ret u s' -> fr None true s s'.
Proof. unfold var_set_val. intro E. take. chain. Qed.
Lemma set_owner_of_fr i a s u s' : set_owner_of a i s = Ret u s' -> fr None true s s'.
Proof. unfold set_owner_of. intro E. take. chain. Qed.
Lemma find_var_same i x (s : st H) r s' : find_var i x s = Ret r s' -> s' = s.
Proof. unfold find_var. intro E. take. auto. Qed.
Lemma find_in_same x : forall l (s : st H) r s', find_in l x s = Ret r s' -> s' = s.
Proof. induction l as [|i l IH]; intros s r s' E; cbn in E; take; auto; apply find_var_same in E0; subst; eauto. Qed.
Lemma cur_stack_inv (s : st H) l s' : cur_stack s = Ret l s' -> s' = s /\ nth_error (envs s) (cur_env s) = Some l.
Proof. unfold cur_stack. intro E. take. now injection E as <- <-. Qed.
Lemma env_find_same x (s : st H) r s' : env_find x s = Ret r s' -> s' = s.
Proof. unfold env_find. intro E. take. apply cur_stack_inv in E0 as (-> & _). eapply find_in_same; eauto. Qed.
Lemma close_over_fr s r s' : close_over s = Ret r s' -> fr None true s s'.
Proof. unfold close_over. intro E. apply bind_ret_inv in E as (l & s1 & E1 & E). apply cur_stack_inv in E1 as (-> & _). injection E as <- <-. apply fr_add_env. Qed.
Lemma cur_scope_inv (s : st H) i s' : cur_scope s = Ret i s' -> s' = s /\ exists l, nth_error (envs s) (cur_env s) = Some (i :: l).
Proof. unfold cur_scope. intro E. take. apply cur_stack_inv in E0 as (-> & E0). eauto. Qed.
Hint Resolve var_set_val_fr set_owner_of_fr close_over_fr : fr.

(** ** Releasing *)
Variable T : tame cf.

Lemma ext_fr f args s r s' : cf_ext cf f args s = Ret r s' -> fr None true s s'.
Proof. apply T. Qed.
Lemma decl_fr a s u s' : cf_decl cf a s = Ret u s' -> fr None true s s'.
Proof. destruct u. apply T. Qed.
Lemma inst_fr a args s u s' : cf_inst cf a args s = Ret u s' -> fr None true s s'.
Proof. destruct u. apply T. Qed.
Lemma free_fr d s u s' : cf_free cf d s = Ret u s' -> fr None true s s'.
Proof. destruct u. apply T. Qed.
Hint Resolve ext_fr decl_fr inst_fr free_fr : fr.

Lemma free_buf_fr b s u s' : free_buf b s = Ret u s' -> fr None true s s'.
Proof. unfold free_buf. intro E. take. injection E as _ <-. apply fr_set_bufs. rewrite upd_length. lia. Qed.
Lemma free_body_fr b s u s' : free_body b s = Ret u s' -> fr None true s s'.
Proof. unfold free_body. intro E. take. injection E as _ <-. apply fr_set_bodies. rewrite upd_length. lia. Qed.
Hint Resolve free_buf_fr free_body_fr : fr.
Lemma scope_free_fr dec i s u s' : (forall a s u s', dec a s = Ret u s' -> fr None true s s') -> scope_free dec i s = Ret u s' -> fr None true s s'.
Proof.
  intros D E. unfold scope_free, put_scope in E. take. eapply fr_trans.
  - eapply iterM_fr; [|eassumption]. cbn. intros x t b t' Q. destruct (v_val x); [eauto|]. apply ret_inv in Q as (_ & ->). apply fr_refl.
  - eapply fr_put_scope; [eassumption|]. repeat split; cbn; auto.
Qed.
Lemma val_free_fr dec a s u s' : (forall a s u s', dec a s = Ret u s' -> fr None true s s') -> val_free cf dec a s = Ret u s' -> fr None true s s'.
Proof.
  intros D E. unfold val_free in E. take; try apply fr_refl; eauto with fr.
  - eapply fr_trans; [eapply scope_free_fr; eassumption|]. eauto with fr.
  - eapply scope_free_fr; eassumption.
Qed.
Lemma decref_fr : forall n a s u s', decref cf n a s = Ret u s' -> fr None true s s'.
Proof. induction n as [|n IH]; intros a s u s' E; cbn [decref] in E; take; auto; [chain|].
  match goal with E : val_free _ _ _ _ = Ret _ _ |- _ => apply val_free_fr in E; auto end. chain.
Qed.
Hint Resolve decref_fr : fr.
Lemma val_free_decref_fr n a s u s' : val_free cf (decref cf n) a s = Ret u s' -> fr None true s s'.
Proof. apply val_free_fr. apply decref_fr. Qed.
Hint Resolve val_free_decref_fr : fr.

(** ** Operators *)
Lemma some_res_inv (m : M H payload) s r s' : some_res m s = Ret r s' -> exists p, r = Some p /\ m s = Ret p s'.
Proof. unfold some_res. intro E. take. eauto. Qed.
Lemma int_res_same z (s : st H) r s' : int_res z s = Ret r s' -> s' = s.
Proof. unfold int_res. intro E. take. auto. Qed.
Lemma equality_same n op l r (s : st H) p s' : equality n op l r s = Ret p s' -> s' = s.
Proof. unfold equality. intro E. take; auto; eapply val_eq_same; eauto. Qed.
Lemma bin_op_fr n op l r pl pr s p s' : bin_op cf n op l r pl pr s = Ret p s' -> fr None true s s'.
Proof.
  unfold bin_op. intro E. destruct pl, pr; try (take; apply fr_refl).
  all: repeat match goal with
    | E : (if ?b then _ else _) _ = Ret _ _ |- _ => destruct b
    | E : some_res _ _ = Ret _ _ |- _ => apply some_res_inv in E as (? & -> & E)
    | E : int_res _ _ = Ret _ _ |- _ => apply int_res_same in E; subst; apply fr_refl
    | E : equality _ _ _ _ _ = Ret _ _ |- _ => apply equality_same in E; subst
    | E : read_buf _ _ _ = Ret _ _ |- _ => apply read_buf_same in E; subst
    | E : mapM val_copy _ _ = Ret _ _ |- _ => apply mapM_fr in E; [|exact val_copy_fr]
    | E : mapM _ _ _ = Ret _ _ |- _ => apply mapM_fr in E; [|cbn; intros; take; chain]
    | _ => inv1 || split_match
    end; chain.
Qed.
Lemma binary_fr n d l op r s p s' : binary cf n d l op r s = Ret p s' -> fr None true s s'.
Proof.
  unfold binary. intro E. repeat (inv1 || match goal with E : bin_op _ _ _ _ _ _ _ _ = Ret _ _ |- _ => apply bin_op_fr in E end || split_match); try discriminate; chain.
Qed.
Lemma unary_fr n d op x s p s' : unary cf n d op x s = Ret p s' -> fr None true s s'.
Proof.
  unfold unary. intro E. repeat (inv1 || match goal with
    | E : some_res _ _ = Ret _ _ |- _ => apply some_res_inv in E as (? & ? & E)
    | E : int_res _ _ = Ret _ _ |- _ => apply int_res_same in E; subst end || split_match); try discriminate; chain.
Qed.
Lemma parse_digits_same : forall l acc (s : st H) z s', parse_digits cf l acc s = Ret z s' -> s' = s.
Proof. induction l as [|c l IH]; intros acc s z s' E; cbn [parse_digits] in E; take; eauto. Qed.
Lemma parse_number_same l (s : st H) z s' : parse_number cf l s = Ret z s' -> s' = s.
Proof. unfold parse_number. intro E. take. eapply parse_digits_same; eauto. Qed.
Hint Resolve binary_fr unary_fr : fr.
End Frame.

(** The tactics and hints above, for other files. *)
Ltac split_match :=
  match goal with
  | E : (match ?x with _ => _ end) _ = Ret _ _ |- _ => destruct x eqn:?
  | E : (match ?x with _ => _ end) = Ret _ _ |- _ => destruct x eqn:?
  | E : (let (_, _) := ?x in _) _ = Ret _ _ |- _ => destruct x eqn:?
  end; try discriminate.
Ltac take := repeat (inv1 || split_match); try discriminate.
(** Use hypotheses that are frames already, or runs that are known to be. *)
Ltac next1 :=
  match goal with
  | |- SpecFrame.fr _ _ ?s ?s => apply fr_refl
  | F : SpecFrame.fr _ _ ?s ?s' |- SpecFrame.fr _ _ ?s ?s' => first [exact F | apply fr_weak; exact F | apply fr_top; exact F | apply fr_loud; exact F]
  | F : SpecFrame.fr _ _ ?s ?s1 |- SpecFrame.fr _ _ ?s ?s' => eapply fr_trans; [first [exact F | apply fr_weak; exact F | apply fr_top; exact F | apply fr_loud; exact F]|]; clear F
  | |- SpecFrame.fr _ _ ?s (set_cells _ ?s) => apply fr_weak; apply fr_set_cells; rewrite ?app_length, ?upd_length; lia
  | |- SpecFrame.fr _ _ ?s (set_bufs _ ?s) => apply fr_weak; apply fr_set_bufs; rewrite ?app_length, ?upd_length; lia
  | |- SpecFrame.fr _ _ ?s (set_bodies _ ?s) => apply fr_weak; apply fr_set_bodies; rewrite ?app_length, ?upd_length; lia
  | E : _ (set_cells (cells ?s ++ ?l) ?s) = Ret _ _ |- SpecFrame.fr _ _ ?s _ =>
    eapply fr_trans; [apply fr_weak; apply (fr_set_cells (cells s ++ l)); rewrite app_length; lia|]
  | E : ?m ?s = Ret _ ?s1 |- SpecFrame.fr _ _ ?s ?s' =>
    eapply fr_trans; [apply fr_weak; solve [eauto 4 with fr]|]; clear E
  end.
Ltac chain := repeat next1.

Ltac same_with L := match goal with E : _ _ = Ret _ _ |- _ => apply L in E; subst end.
Ltac same0 := first [same_with @read_buf_same | same_with @read_upto_same | same_with @read_name_same | same_with @read_body_same].
Global Hint Resolve get_cell_fr get_scope_fr alloc_fr new_buf_fr new_body_fr put_cell_fr make_str_fr incref_fr val_copy_fr write_var_fr
  var_set_val_fr set_owner_of_fr close_over_fr ext_fr decl_fr inst_fr free_fr free_buf_fr free_body_fr decref_fr val_free_decref_fr binary_fr unary_fr : fr.
