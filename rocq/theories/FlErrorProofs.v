(** * A script that fails has said why. *)

From Coq Require Import ZArith Arith Ascii String Lia Bool List.
From Verif Require Import Base FlAst FlState FlInterp FlMonad.
Import ListNotations.
Local Open Scope nat_scope.

Section Errors.
Context {H : Type}.
Variable cf : conf H.
(** The program around the engine has told the user itself. *)
Variable told : H -> Prop.

(** The message outstanding in [s] begins with the name of the script and fits. *)
Definition explained (s : st H) : Prop :=
  told (host s) \/ exists why, err s = Some (cf_prog cf ++ lit ":0:0: " ++ why) /\ length (cf_prog cf ++ lit ":0:0: " ++ why) < ERR_SIZE.
Definition sound {A} (m : M H A) : Prop :=
  forall s, err s = None -> match m s with Ret _ s' => err s' = None | Fail s' => explained s' | _ => True end.

(** The callbacks of the host explain their failures too. *)
Definition polite : Prop :=
  (forall f args, sound (cf_ext cf f args)) /\ (forall a, sound (cf_decl cf a)) /\ (forall a args, sound (cf_inst cf a args)) /\ (forall d, sound (cf_free cf d)).

Lemma sound_bind {A B} (m : M H A) (k : A -> M H B) : sound m -> (forall a, sound (k a)) -> sound (mbind m k).
Proof.
  intros P Q s N. unfold mbind. specialize (P s N). destruct (m s) as [a s1|s1| | |]; auto. apply Q. exact P.
Qed.
Lemma sound_ret {A} (a : A) : sound (ret a).
Proof. intros s N. exact N. Qed.
Lemma sound_died {A} : sound (@died H A). Proof. intros s N. exact I. Qed.
Lemma sound_undef {A} u : sound (@undef H A u). Proof. intros s N. exact I. Qed.
Lemma sound_nofuel {A} : sound (@nofuel H A). Proof. intros s N. exact I. Qed.
Lemma sound_assert b : sound (@assert H b). Proof. destruct b; intros s N; cbn; auto. Qed.
Lemma sound_gets {A} (f : st H -> A) : sound (gets f). Proof. intros s N. exact N. Qed.
Lemma sound_modify (f : st H -> st H) : (forall s, err s = None -> err (f s) = None) -> sound (modify f).
Proof. intros P s N. cbn. auto. Qed.
Lemma sound_error {A} msg : sound (@error H cf A msg).
Proof.
  intros s N. unfold error, raise. rewrite N. destruct (Nat.leb ERR_SIZE (length msg)); auto.
  destruct (Nat.leb ERR_SIZE (length (cf_prog cf ++ lit ":0:0: " ++ msg))) eqn:L; auto. apply Nat.leb_gt in L. right. exists msg. split; [reflexivity|exact L].
Qed.

Create HintDb snd.
Hint Resolve sound_ret sound_died sound_undef sound_nofuel sound_assert sound_gets sound_error : snd.

Ltac prim := let s := fresh "s" in let N := fresh "N" in intros s N; cbn;
  repeat (match goal with |- context [match ?x with _ => _ end] => lazymatch x with context [match _ with _ => _ end] => fail | _ => destruct x end end; cbn); try exact I; try exact N; cbn; auto.
Ltac go := repeat first
  [ assumption
  | match goal with |- sound (mbind _ _) => apply sound_bind; [|intro] end
  | match goal with |- sound (match ?x with _ => _ end) => destruct x end
  | solve [auto with snd]
  | apply sound_modify; intros; assumption ].

Lemma get_cell_snd a : sound (@get_cell H a). Proof. unfold get_cell. prim. Qed.
Lemma put_cell_snd a c : sound (@put_cell H a c). Proof. prim. Qed.
Hint Resolve get_cell_snd put_cell_snd : snd.
Lemma incref_snd a : sound (@incref H a). Proof. unfold incref. go. Qed.
Lemma alloc_snd p : sound (@alloc H p). Proof. prim. Qed.
Lemma new_buf_snd p : sound (@new_buf H p). Proof. prim. Qed.
Lemma new_body_snd p : sound (@new_body H p). Proof. prim. Qed.
Lemma read_buf_snd b n : sound (@read_buf H b n). Proof. unfold read_buf. prim. Qed.
Lemma read_upto_snd b n : sound (@read_upto H b n). Proof. unfold read_upto. prim. Qed.
Lemma read_name_snd x : sound (@read_name H x). Proof. unfold read_name. prim. Qed.
Hint Resolve incref_snd alloc_snd new_buf_snd new_body_snd read_buf_snd read_upto_snd read_name_snd : snd.
Lemma make_str_snd c : sound (@make_str H c). Proof. unfold make_str. go. Qed.
Lemma val_copy_snd a : sound (@val_copy H a). Proof. unfold val_copy. go. Qed.
Hint Resolve make_str_snd val_copy_snd : snd.

Lemma all2_snd {A} (eq : A -> A -> M H bool) : (forall x y, sound (eq x y)) -> forall xs ys, sound (all2 eq xs ys).
Proof. intros P. induction xs as [|x xs IH]; intros [|y ys]; cbn [all2]; go. Qed.
Lemma map_find_snd {A} (eq : A -> A -> M H bool) : (forall x y, sound (eq x y)) -> forall k v ys, sound (map_find eq k v ys).
Proof. intros P k v. induction ys as [|[k' v'] ys IH]; cbn [map_find]; go. Qed.
Hint Resolve all2_snd map_find_snd : snd.
Lemma map_all_snd {A} (eq : A -> A -> M H bool) : (forall x y, sound (eq x y)) -> forall xs ys, sound (map_all eq xs ys).
Proof. intros P. induction xs as [|[k v] xs IH]; intro ys; cbn [map_all]; go. Qed.
Hint Resolve map_all_snd : snd.
Lemma val_eq_snd n : forall x y, sound (@val_eq H n x y).
Proof. induction n as [|n IH]; intros x y; cbn [val_eq]; go. Qed.
Hint Resolve val_eq_snd : snd.

Lemma get_scope_snd i : sound (@get_scope H i). Proof. unfold get_scope. prim. Qed.
Lemma put_scope_snd i c : sound (@put_scope H i c). Proof. prim. Qed.
Lemma scope_alloc_snd : sound (@scope_alloc H). Proof. prim. Qed.
Lemma cur_stack_snd : sound (@cur_stack H). Proof. unfold cur_stack. prim. Qed.
Lemma set_stack_snd l : sound (@set_stack H l). Proof. prim. Qed.
Hint Resolve get_scope_snd put_scope_snd scope_alloc_snd cur_stack_snd set_stack_snd : snd.
Lemma find_var_snd i x : sound (@find_var H i x). Proof. unfold find_var. go. Qed.
Lemma add_var_snd i x b : sound (@add_var H i x b). Proof. unfold add_var. go. Qed.
Lemma write_var_snd i j a : sound (@write_var H i j a). Proof. unfold write_var. go. Qed.
Hint Resolve find_var_snd add_var_snd write_var_snd : snd.
Lemma var_set_val_snd i j a : sound (@var_set_val H i j a). Proof. unfold var_set_val. go. Qed.
Lemma set_owner_of_snd a i : sound (@set_owner_of H a i). Proof. unfold set_owner_of. go. Qed.
Lemma close_over_snd : sound (@close_over H). Proof. unfold close_over. go. Qed.
Lemma cur_scope_snd : sound (@cur_scope H). Proof. unfold cur_scope. go. Qed.
Lemma attach_snd i : sound (@attach H i). Proof. unfold attach. go. Qed.
Lemma detach_snd : sound (@detach H). Proof. unfold detach. go. Qed.
Hint Resolve var_set_val_snd set_owner_of_snd close_over_snd cur_scope_snd attach_snd detach_snd : snd.
Lemma push_scope_snd : sound (@push_scope H). Proof. unfold push_scope. go. Qed.
Lemma find_in_snd x : forall l, sound (@find_in H l x).
Proof. induction l as [|i l IH]; cbn [find_in]; go. Qed.
Hint Resolve push_scope_snd find_in_snd : snd.
Lemma env_find_snd x : sound (@env_find H x). Proof. unfold env_find. go. Qed.
Hint Resolve env_find_snd : snd.

Lemma mapM_snd {A B} (f : A -> M H B) : (forall a, sound (f a)) -> forall l, sound (mapM f l).
Proof. intros P. induction l as [|x l IH]; cbn [mapM]; go. Qed.
Lemma iterM_snd {A} (f : A -> M H unit) : (forall a, sound (f a)) -> forall l, sound (iterM f l).
Proof. intros P. induction l as [|x l IH]; cbn [iterM]; go. Qed.
Lemma free_buf_snd b : sound (@free_buf H b). Proof. unfold free_buf. prim. Qed.
Lemma free_body_snd b : sound (@free_body H b). Proof. unfold free_body. prim. Qed.
Lemma read_body_snd b : sound (@read_body H b). Proof. unfold read_body. prim. Qed.
Lemma no_rv_snd : sound (@no_rv H). Proof. unfold no_rv. prim. Qed.
Hint Resolve free_buf_snd free_body_snd read_body_snd no_rv_snd : snd.

Hypothesis P : polite.
Lemma ext_snd f args : sound (cf_ext cf f args). Proof. apply P. Qed.
Lemma decl_snd a : sound (cf_decl cf a). Proof. apply P. Qed.
Lemma inst_snd a args : sound (cf_inst cf a args). Proof. apply P. Qed.
Lemma free_snd d : sound (cf_free cf d). Proof. apply P. Qed.
Hint Resolve ext_snd decl_snd inst_snd free_snd : snd.

Lemma scope_free_snd dec i : (forall a, sound (dec a)) -> sound (@scope_free H dec i).
Proof. intros D. unfold scope_free. go. apply iterM_snd. intro v. go. Qed.
Hint Resolve scope_free_snd : snd.
Lemma val_free_snd dec a : (forall a, sound (dec a)) -> sound (@val_free H cf dec a).
Proof. intros D. unfold val_free. go. Qed.
Hint Resolve val_free_snd : snd.
Lemma decref_snd n : forall a, sound (decref cf n a).
Proof. induction n as [|n IH]; intro a; cbn [decref]; go. Qed.
Hint Resolve decref_snd : snd.

Lemma int_res_snd z : sound (@int_res H z). Proof. unfold int_res. go. Qed.
Lemma equality_snd n op l r : sound (@equality H n op l r). Proof. unfold equality. go. Qed.
Hint Resolve int_res_snd equality_snd : snd.
Lemma some_res_snd m : sound m -> sound (@some_res H m). Proof. intro Q. unfold some_res. go. Qed.
Hint Resolve some_res_snd : snd.
Lemma bin_op_snd n op l r p q : sound (bin_op cf n op l r p q).
Proof. destruct p, q; cbn [bin_op]; go; apply mapM_snd; intro; go. Qed.
Hint Resolve bin_op_snd : snd.
Lemma binary_snd n d l op r : sound (binary cf n d l op r).
Proof. unfold binary. go. Qed.
Lemma unary_snd n d op x : sound (unary cf n d op x).
Proof. unfold unary. go. Qed.
Hint Resolve binary_snd unary_snd : snd.
Lemma parse_digits_snd : forall l acc, sound (parse_digits cf l acc).
Proof. induction l as [|c l IH]; intro acc; cbn [parse_digits]; go. Qed.
Hint Resolve parse_digits_snd : snd.
Lemma parse_number_snd l : sound (parse_number cf l).
Proof. unfold parse_number. go. Qed.
Lemma repr_snd n : forall b a, sound (@repr H n b a).
Proof. induction n as [|n IH]; intros b a; cbn [repr]; go; apply mapM_snd; intro; go. Qed.
Hint Resolve parse_number_snd repr_snd : snd.

(** ** With less fuel *)
Definition sound_rec (R : @rec H) : Prop :=
  (forall d e, sound (r_eval R d e)) /\ (forall f acc d args, sound (r_call R f acc d args)) /\ (forall ss, sound (r_block R ss)) /\
  (forall x, sound (r_stmt R x)) /\ (forall k b x ps ss, sound (r_fun R k b x ps ss)).

Section Step.
Variable R : @rec H.
Hypothesis G : sound_rec R.
Lemma r_eval_snd d e : sound (r_eval R d e). Proof. apply G. Qed.
Lemma r_call_snd f acc d args : sound (r_call R f acc d args). Proof. apply G. Qed.
Lemma r_block_snd ss : sound (r_block R ss). Proof. apply G. Qed.
Lemma r_stmt_snd x : sound (r_stmt R x). Proof. apply G. Qed.
Lemma r_fun_snd k b x ps ss : sound (r_fun R k b x ps ss). Proof. apply G. Qed.
Hint Resolve r_eval_snd r_call_snd r_block_snd r_stmt_snd r_fun_snd : snd.

Lemma both_snd e : sound (both R e). Proof. unfold both. go. Qed.
Hint Resolve both_snd : snd.
Lemma value_snd e : sound (value R e). Proof. unfold value. go. Qed.
Lemma deliver_snd d a : sound (@deliver H d a). Proof. destruct d; cbn [deliver]; go. prim. Qed.
Hint Resolve value_snd deliver_snd : snd.
Lemma deliver_opt_snd d a : sound (@deliver_opt H d a). Proof. unfold deliver_opt. go. Qed.
Lemma access_find_snd e x : sound (access_find cf R e x). Proof. unfold access_find. go. Qed.
Lemma vref_val_snd r : sound (@vref_val H r). Proof. unfold vref_val. go. Qed.
Hint Resolve deliver_opt_snd access_find_snd vref_val_snd : snd.
Lemma do_access_snd d e x : sound (do_access cf R d e x). Proof. unfold do_access. go. Qed.
Lemma do_ident_snd d x : sound (do_ident cf d x). Proof. unfold do_ident. go. Qed.
Lemma do_lambda_snd d ps b : sound (@do_lambda H d ps b). Proof. unfold do_lambda. go. Qed.
Lemma has_key_snd k : forall keys, sound (has_key R k keys). Proof. induction keys as [|k' keys IH]; cbn [has_key]; go. Qed.
Hint Resolve do_access_snd do_ident_snd do_lambda_snd has_key_snd : snd.
Lemma map_items_snd : forall kvs acc, sound (map_items cf R kvs acc).
Proof. induction kvs as [|[ke ve] kvs IH]; intro acc; cbn [map_items]; go. Qed.
Lemma vec_index_snd es i : sound (vec_index cf es i). Proof. unfold vec_index. go. Qed.
Lemma map_index_snd i : forall kvs, sound (map_index R kvs i). Proof. induction kvs as [|[k v] kvs IH]; cbn [map_index]; go. Qed.
Hint Resolve map_items_snd vec_index_snd map_index_snd : snd.
Lemma do_index_snd d e i : sound (do_index cf R d e i). Proof. unfold do_index. go. Qed.
Lemma do_call_snd d f args : sound (do_call cf R d f args). Proof. unfold do_call. go; apply mapM_snd; auto with snd. Qed.
Hint Resolve do_index_snd do_call_snd : snd.
Lemma plain_snd m : sound m -> sound (@plain H m). Proof. intro Q. unfold plain. go. Qed.
Hint Resolve plain_snd : snd.
Lemma eval_snd d e : sound (eval_ cf R d e).
Proof. destruct e; cbn [eval_]; go; try apply plain_snd; go; try (apply mapM_snd; auto with snd). Qed.

Lemma arg_count_error_snd {A} x k args : sound (@arg_count_error H cf A x k args). Proof. unfold arg_count_error. go. Qed.
Lemma self_str_snd a : sound (@self_str H a). Proof. unfold self_str. go. Qed.
Lemma self_vec_snd a : sound (@self_vec H a). Proof. unfold self_vec. go. Qed.
Lemma vec_again_snd a : sound (@vec_again H a). Proof. unfold vec_again. go. Qed.
Lemma callback_snd f x : sound (callback R f x). Proof. unfold callback. go. Qed.
Hint Resolve arg_count_error_snd self_str_snd self_vec_snd vec_again_snd callback_snd : snd.
Lemma map_loop_snd self f : forall k i, sound (map_loop R self f i k). Proof. induction k as [|k IH]; intro i; cbn [map_loop]; go. Qed.
Lemma where_loop_snd self f : forall k i, sound (where_loop cf R self f i k). Proof. induction k as [|k IH]; intro i; cbn [where_loop]; go. Qed.
Hint Resolve map_loop_snd where_loop_snd : snd.
Lemma call_member_snd p self args : sound (call_member cf R p self args).
Proof. destruct p; cbn [call_member]; unfold str_len, str_ends, str_starts, vec_len, vec_map, vec_where; go. Qed.
Hint Resolve call_member_snd : snd.
Lemma add_arg_snd i x a : sound (@add_arg H i x a). Proof. unfold add_arg. go. Qed.
Hint Resolve add_arg_snd : snd.
Lemma add_args_snd i : forall ps args, sound (@add_args H i ps args).
Proof. induction ps as [|p ps IH]; intros [|a args]; cbn [add_args]; go. Qed.
Hint Resolve add_args_snd : snd.
Lemma setup_args_snd f args : sound (setup_args cf f args). Proof. unfold setup_args. go. Qed.
Lemma arg_vals_snd : sound (@arg_vals H). Proof. unfold arg_vals. go. apply mapM_snd. intro. go. Qed.
Hint Resolve setup_args_snd arg_vals_snd : snd.
Lemma run_body_snd fa f self d : sound (run_body cf R fa f self d). Proof. unfold run_body. go. Qed.
Lemma finish_snd fa b d args : sound (finish cf R fa b d args). Proof. unfold finish. go. Qed.
Hint Resolve run_body_snd finish_snd : snd.
Lemma unless_snd {A} (o : option A) f : (forall x, sound (f x)) -> sound (@unless H A o f). Proof. intro Q. unfold unless. go. Qed.
Lemma call_snd fa acc d args : sound (call_ cf R fa acc d args).
Proof. unfold call_. go; apply unless_snd; intro; go. Qed.
Lemma block_snd ss : sound (block_ R ss). Proof. unfold block_. go. apply iterM_snd. auto with snd. Qed.
Lemma let_snd b x e : sound (let_ cf R b x e). Proof. unfold let_. go. Qed.
Hint Resolve let_snd : snd.
Lemma static_member_snd x : sound (static_member cf R x). Proof. unfold static_member. go. Qed.
Hint Resolve static_member_snd : snd.
Lemma fun_snd k b x ps ss : sound (fun_ cf R k b x ps ss). Proof. unfold fun_. go; apply iterM_snd; auto with snd. Qed.
Lemma do_return_snd e : sound (do_return cf R e). Proof. unfold do_return. go. Qed.
Lemma do_print_snd e : sound (do_print cf R e). Proof. unfold do_print. go. Qed.
Lemma do_assert_snd e t : sound (do_assert cf R e t). Proof. unfold do_assert. go. Qed.
Lemma target_snd l : sound (target cf R l). Proof. unfold target. go. Qed.
Lemma set_vref_snd r a : sound (@set_vref H r a). Proof. unfold set_vref. go. Qed.
Hint Resolve do_return_snd do_print_snd do_assert_snd target_snd set_vref_snd : snd.
Lemma do_assign_snd l t e : sound (do_assign cf R l t e). Proof. unfold do_assign. go. Qed.
Lemma new_members_snd : sound (@new_members H).
Proof. unfold new_members. apply mapM_snd. intros [[k x] p]. cbn [add_member]. go. Qed.
Lemma import_file_snd path : sound (import_file cf R path).
Proof.
  unfold import_file. destruct (cf_file cf path) as [why|ss]; [apply sound_error|].
  assert (Q : sound (mbind (@new_members H) (fun ms => mbind (modify (set_engine None None ms [] None)) (fun _ => iterM (r_stmt R) ss)))).
  { apply sound_bind; [apply new_members_snd|]. intro ms. apply sound_bind; [apply sound_modify; intros; reflexivity|]. intros _. apply iterM_snd. auto with snd. }
  intros s N. cbv beta. specialize (Q s N). destruct (mbind _ _ s) as [u s'|s'| |u|]; auto.
  apply sound_error. exact N.
Qed.
Hint Resolve do_assign_snd import_file_snd : snd.
Lemma do_import_snd b path : sound (do_import cf R b path). Proof. unfold do_import. go. Qed.
Lemma returning_snd : sound (@returning H).
Proof.
  intros s N. unfold returning. destruct (cur_body s) as [b|]; [|exact N]. destruct (cur_rv s) as [v|]; [|exact N].
  assert (Q : sound (mbind (@read_body H b) (fun _ => ret true))) by go. apply Q. exact N.
Qed.
Hint Resolve do_import_snd returning_snd : snd.
Lemma stmt_snd x : sound (stmt_ cf R x). Proof. destruct x; cbn [stmt_]; go. Qed.
End Step.

Lemma interp_sound n : sound_rec (interp cf n).
Proof.
  induction n as [|n IH].
  - repeat split; intros; apply sound_nofuel.
  - cbn [interp]. split; [intros; now apply eval_snd|]. split; [intros; now apply call_snd|]. split; [intros; now apply block_snd|].
    split; [intros; now apply stmt_snd|intros; now apply fun_snd].
Qed.

(** A run that fails has an explanation. *)
Lemma run_explained n paths h ss s : run cf n paths h ss = Fail s -> explained s.
Proof.
  intro E. unfold run in E. assert (Q : sound (mbind (@new_members H) (fun ms => modify (set_engine None None ms paths None)))).
  { apply sound_bind; [apply new_members_snd|]. intro. apply sound_modify. reflexivity. }
  specialize (Q (blank paths h) eq_refl). unfold create in E. destruct (mbind _ _ (blank paths h)) as [u t|t| | |]; try discriminate.
  - assert (X : sound (exec cf n ss)) by (apply iterM_snd; intro; apply interp_sound). specialize (X t Q). rewrite E in X. exact X.
  - injection E as ->. exact Q.
Qed.
End Errors.
