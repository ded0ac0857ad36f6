(** * More fuel changes nothing but running out of it. *)

From Coq Require Import ZArith Arith Ascii String Lia Bool List.
From Verif Require Import Base FlAst FlState FlInterp FlMonad.
Import ListNotations.
Local Open Scope nat_scope.

Section Fuel.
Context {H : Type}.
Variable cf : conf H.

Definition below {A} (m m' : M H A) : Prop := forall s, m s = NoFuel \/ m' s = m s.

Lemma below_refl {A} (m : M H A) : below m m.
Proof. intro s. now right. Qed.
Lemma below_nofuel {A} (m : M H A) : below nofuel m.
Proof. intro s. now left. Qed.
Lemma below_bind {A B} (m m' : M H A) (k k' : A -> M H B) : below m m' -> (forall a, below (k a) (k' a)) -> below (mbind m k) (mbind m' k').
Proof.
  intros P Q s. unfold mbind. destruct (P s) as [E|E]; [left; now rewrite E|]. rewrite E. destruct (m s) as [a t|t| |u|]; auto. apply Q.
Qed.

Create HintDb fu.
Hint Resolve below_nofuel : fu.
Ltac go := repeat first
  [ assumption
  | match goal with |- below ?a ?b => constr_eq a b; apply below_refl end
  | apply below_nofuel
  | match goal with |- below (mbind _ _) (mbind _ _) => apply below_bind; [|intro] end
  | match goal with |- below (match ?x with _ => _ end) (match ?x with _ => _ end) => destruct x end
  | solve [auto with fu arith] ].

Lemma all2_fu {A} (eq eq' : A -> A -> M H bool) : (forall x y, below (eq x y) (eq' x y)) -> forall xs ys, below (all2 eq xs ys) (all2 eq' xs ys).
Proof. intros P. induction xs as [|x xs IH]; intros [|y ys]; cbn [all2]; go. Qed.
Lemma map_find_fu {A} (eq eq' : A -> A -> M H bool) : (forall x y, below (eq x y) (eq' x y)) -> forall k v ys, below (map_find eq k v ys) (map_find eq' k v ys).
Proof. intros P k v. induction ys as [|[k' v'] ys IH]; cbn [map_find]; go. Qed.
Hint Resolve all2_fu map_find_fu : fu.
Lemma map_all_fu {A} (eq eq' : A -> A -> M H bool) : (forall x y, below (eq x y) (eq' x y)) -> forall xs ys, below (map_all eq xs ys) (map_all eq' xs ys).
Proof. intros P. induction xs as [|[k v] xs IH]; intro ys; cbn [map_all]; go. Qed.
Hint Resolve map_all_fu : fu.
Lemma val_eq_fu n : forall n', n <= n' -> forall x y, below (@val_eq H n x y) (@val_eq H n' x y).
Proof. induction n as [|n IH]; intros [|n'] L x y; cbn [val_eq]; try lia; go. all: assert (n <= n') by lia; go. Qed.
Hint Resolve val_eq_fu : fu.
Lemma mapM_fu {A B} (f f' : A -> M H B) : (forall a, below (f a) (f' a)) -> forall l, below (mapM f l) (mapM f' l).
Proof. intros P. induction l as [|x l IH]; cbn [mapM]; go. Qed.
Lemma iterM_fu {A} (f f' : A -> M H unit) : (forall a, below (f a) (f' a)) -> forall l, below (iterM f l) (iterM f' l).
Proof. intros P. induction l as [|x l IH]; cbn [iterM]; go. Qed.

Lemma scope_free_fu dec dec' i : (forall a, below (dec a) (dec' a)) -> below (@scope_free H dec i) (@scope_free H dec' i).
Proof. intros D. unfold scope_free. go. apply iterM_fu. intro v. go. Qed.
Hint Resolve scope_free_fu : fu.
Lemma val_free_fu dec dec' a : (forall a, below (dec a) (dec' a)) -> below (@val_free H cf dec a) (@val_free H cf dec' a).
Proof. intros D. unfold val_free. go. Qed.
Hint Resolve val_free_fu : fu.
Lemma decref_fu n : forall n', n <= n' -> forall a, below (decref cf n a) (decref cf n' a).
Proof. induction n as [|n IH]; intros [|n'] L a; cbn [decref]; try lia; go. all: assert (n <= n') by lia; go. Qed.
Hint Resolve decref_fu : fu.

Lemma equality_fu n n' op l r : n <= n' -> below (@equality H n op l r) (@equality H n' op l r).
Proof. intro L. unfold equality. go. Qed.
Hint Resolve equality_fu : fu.
Lemma bin_op_fu n n' op l r p q : n <= n' -> below (bin_op cf n op l r p q) (bin_op cf n' op l r p q).
Proof. intro L. destruct p, q; cbn [bin_op]; go. Qed.
Hint Resolve bin_op_fu : fu.
Lemma binary_fu n n' d l op r : n <= n' -> below (binary cf n d l op r) (binary cf n' d l op r).
Proof. intro L. unfold binary. cbv zeta. go. Qed.
Lemma unary_fu n n' d op x : n <= n' -> below (unary cf n d op x) (unary cf n' d op x).
Proof. intro L. unfold unary. go. Qed.
Hint Resolve binary_fu unary_fu : fu.
Lemma repr_fu n : forall n', n <= n' -> forall b a, below (@repr H n b a) (@repr H n' b a).
Proof. induction n as [|n IH]; intros [|n'] L b a; cbn [repr]; try lia; go. all: assert (n <= n') by lia; apply mapM_fu; intro; go. Qed.
Hint Resolve repr_fu : fu.

Definition below_rec (R R' : @rec H) : Prop :=
  r_fuel R <= r_fuel R' /\
  (forall d e, below (r_eval R d e) (r_eval R' d e)) /\ (forall f acc d args, below (r_call R f acc d args) (r_call R' f acc d args)) /\
  (forall ss, below (r_block R ss) (r_block R' ss)) /\ (forall x, below (r_stmt R x) (r_stmt R' x)) /\
  (forall k b x ps ss, below (r_fun R k b x ps ss) (r_fun R' k b x ps ss)).

Section Step.
Variable R R' : @rec H.
Hypothesis G : below_rec R R'.
Lemma r_fuel_fu : r_fuel R <= r_fuel R'. Proof. apply G. Qed.
Lemma r_eval_fu d e : below (r_eval R d e) (r_eval R' d e). Proof. apply G. Qed.
Lemma r_call_fu f acc d args : below (r_call R f acc d args) (r_call R' f acc d args). Proof. apply G. Qed.
Lemma r_block_fu ss : below (r_block R ss) (r_block R' ss). Proof. apply G. Qed.
Lemma r_stmt_fu x : below (r_stmt R x) (r_stmt R' x). Proof. apply G. Qed.
Lemma r_fun_fu k b x ps ss : below (r_fun R k b x ps ss) (r_fun R' k b x ps ss). Proof. apply G. Qed.
Hint Resolve r_fuel_fu r_eval_fu r_call_fu r_block_fu r_stmt_fu r_fun_fu : fu.

Lemma both_fu e : below (both R e) (both R' e). Proof. unfold both. go. Qed.
Hint Resolve both_fu : fu.
Lemma value_fu e : below (value R e) (value R' e). Proof. unfold value. go. Qed.
Hint Resolve value_fu : fu.
Lemma access_find_fu e x : below (access_find cf R e x) (access_find cf R' e x). Proof. unfold access_find. go. Qed.
Hint Resolve access_find_fu : fu.
Lemma do_access_fu d e x : below (do_access cf R d e x) (do_access cf R' d e x). Proof. unfold do_access. go. Qed.
Lemma has_key_fu k : forall keys, below (has_key R k keys) (has_key R' k keys). Proof. induction keys as [|k' keys IH]; cbn [has_key]; go. Qed.
Hint Resolve do_access_fu has_key_fu : fu.
Lemma map_items_fu : forall kvs acc, below (map_items cf R kvs acc) (map_items cf R' kvs acc).
Proof. induction kvs as [|[ke ve] kvs IH]; intro acc; cbn [map_items]; go. Qed.
Lemma map_index_fu i : forall kvs, below (map_index R kvs i) (map_index R' kvs i). Proof. induction kvs as [|[k v] kvs IH]; cbn [map_index]; go. Qed.
Hint Resolve map_items_fu map_index_fu : fu.
Lemma do_index_fu d e i : below (do_index cf R d e i) (do_index cf R' d e i). Proof. unfold do_index. go. Qed.
Lemma do_call_fu d f args : below (do_call cf R d f args) (do_call cf R' d f args). Proof. unfold do_call. go; apply mapM_fu; auto with fu. Qed.
Hint Resolve do_index_fu do_call_fu : fu.
Lemma plain_fu m m' : below m m' -> below (@plain H m) (@plain H m'). Proof. intro Q. unfold plain. go. Qed.
Lemma eval_fu d e : below (eval_ cf R d e) (eval_ cf R' d e).
Proof. destruct e; cbn [eval_]; go; apply plain_fu; go; apply mapM_fu; auto with fu. Qed.

Lemma callback_fu f x : below (callback R f x) (callback R' f x). Proof. unfold callback. go. Qed.
Hint Resolve callback_fu : fu.
Lemma map_loop_fu self f : forall k i, below (map_loop R self f i k) (map_loop R' self f i k). Proof. induction k as [|k IH]; intro i; cbn [map_loop]; go. Qed.
Lemma where_loop_fu self f : forall k k' i, k <= k' -> below (where_loop cf R self f i k) (where_loop cf R' self f i k').
Proof. induction k as [|k IH]; intros [|k'] i L; cbn [where_loop]; try lia; go. Qed.
Hint Resolve map_loop_fu where_loop_fu : fu.
Lemma call_member_fu p self args : below (call_member cf R p self args) (call_member cf R' p self args).
Proof. destruct p; cbn [call_member]; unfold vec_map, vec_where; go. Qed.
Hint Resolve call_member_fu : fu.
Lemma run_body_fu fa f self d : below (run_body cf R fa f self d) (run_body cf R' fa f self d). Proof. unfold run_body. go. Qed.
Lemma finish_fu fa b d args : below (finish cf R fa b d args) (finish cf R' fa b d args). Proof. unfold finish. go. Qed.
Hint Resolve run_body_fu finish_fu : fu.
Lemma call_fu fa acc d args : below (call_ cf R fa acc d args) (call_ cf R' fa acc d args).
Proof. unfold call_. go. Qed.
Lemma block_fu ss : below (block_ R ss) (block_ R' ss). Proof. unfold block_. go. apply iterM_fu. auto with fu. Qed.
Lemma let_fu b x e : below (let_ cf R b x e) (let_ cf R' b x e). Proof. unfold let_. go. Qed.
Hint Resolve let_fu : fu.
Lemma static_member_fu x : below (static_member cf R x) (static_member cf R' x). Proof. unfold static_member. go. Qed.
Hint Resolve static_member_fu : fu.
Lemma fun_fu k b x ps ss : below (fun_ cf R k b x ps ss) (fun_ cf R' k b x ps ss). Proof. unfold fun_. go; apply iterM_fu; auto with fu. Qed.
Lemma do_return_fu e : below (do_return cf R e) (do_return cf R' e). Proof. unfold do_return. go. Qed.
Lemma do_print_fu e : below (do_print cf R e) (do_print cf R' e). Proof. unfold do_print. go. Qed.
Lemma do_assert_fu e t : below (do_assert cf R e t) (do_assert cf R' e t). Proof. unfold do_assert. go. Qed.
Lemma target_fu l : below (target cf R l) (target cf R' l). Proof. unfold target. go. Qed.
Hint Resolve do_return_fu do_print_fu do_assert_fu target_fu : fu.
Lemma do_assign_fu l t e : below (do_assign cf R l t e) (do_assign cf R' l t e). Proof. unfold do_assign. go. Qed.
Lemma import_file_fu path : below (import_file cf R path) (import_file cf R' path).
Proof.
  unfold import_file. destruct (cf_file cf path) as [why|ss]; [apply below_refl|].
  assert (Q : below (mbind (@new_members H) (fun ms => mbind (modify (set_engine None None ms [] None)) (fun _ => iterM (r_stmt R) ss)))
                    (mbind (@new_members H) (fun ms => mbind (modify (set_engine None None ms [] None)) (fun _ => iterM (r_stmt R') ss)))).
  { go. apply iterM_fu. auto with fu. }
  intro s. cbv beta. destruct (Q s) as [E|E]; rewrite E; auto.
Qed.
Hint Resolve do_assign_fu import_file_fu : fu.
Lemma do_import_fu b path : below (do_import cf R b path) (do_import cf R' b path). Proof. unfold do_import. go. Qed.
Hint Resolve do_import_fu : fu.
Lemma stmt_fu x : below (stmt_ cf R x) (stmt_ cf R' x). Proof. destruct x; cbn [stmt_]; go. Qed.
End Step.

Lemma interp_below n : forall n', n <= n' -> below_rec (interp cf n) (interp cf n').
Proof.
  induction n as [|n IH]; intros n' L.
  - split; [apply Nat.le_0_l|]. repeat split; intros; apply below_nofuel.
  - destruct n' as [|n']; [lia|]. assert (G := IH n' ltac:(lia)). cbn [interp]. split; [exact L|].
    split; [intros; now apply eval_fu|]. split; [intros; now apply call_fu|]. split; [intros; now apply block_fu|].
    split; [intros; now apply stmt_fu|intros; now apply fun_fu].
Qed.

(** What a script comes to does not depend on how much fuel it is given, if it is enough. *)
Lemma run_more n n' paths h ss : n <= n' -> run cf n paths h ss <> NoFuel -> run cf n' paths h ss = run cf n paths h ss.
Proof.
  intros L E. unfold run in *. destruct (create paths h) as [u s|s| |u|]; auto.
  assert (Q : below (exec cf n ss) (exec cf n' ss)) by (apply iterM_fu; intro; now apply interp_below). destruct (Q s) as [F|F]; [contradiction|exact F].
Qed.
Lemma run_determined n n' paths h ss : run cf n paths h ss <> NoFuel -> run cf n' paths h ss <> NoFuel -> run cf n paths h ss = run cf n' paths h ss.
Proof.
  intros E E'. destruct (Nat.le_ge_cases n n') as [L|L]; [symmetry|]; now apply run_more.
Qed.
Lemma exec_more n n' ss s : n <= n' -> exec cf n ss s <> NoFuel -> exec cf n' ss s = exec cf n ss s.
Proof.
  intros L E. assert (Q : below (exec cf n ss) (exec cf n' ss)) by (apply iterM_fu; intro; now apply interp_below). destruct (Q s) as [F|F]; [contradiction|exact F].
Qed.
End Fuel.
