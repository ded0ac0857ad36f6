(** * Lemmas about the interpreter's monad. *)

From Coq Require Import ZArith Arith Ascii String Lia Bool List.
From Verif Require Import Base FlAst FlState FlInterp.
Import ListNotations.
Local Open Scope nat_scope.

Section Laws.
Context {H : Type}.

Lemma bind_ret_inv {A B} (m : M H A) (k : A -> M H B) s b s' :
  mbind m k s = Ret b s' -> exists a s1, m s = Ret a s1 /\ k a s1 = Ret b s'.
Proof. unfold mbind. destruct (m s); intro E; try discriminate. eauto. Qed.

Lemma bind_step {A B} (m : M H A) (k : A -> M H B) s a s1 : m s = Ret a s1 -> mbind m k s = k a s1.
Proof. unfold mbind. now intros ->. Qed.

Lemma bind_fail {A B} (m : M H A) (k : A -> M H B) s s1 : m s = Fail s1 -> mbind m k s = Fail s1.
Proof. unfold mbind. now intros ->. Qed.

Lemma ret_inv {A} (a b : A) (s s' : st H) : ret a s = Ret b s' -> b = a /\ s' = s.
Proof. unfold ret. intro E. injection E. auto. Qed.

Lemma raise_not_ret {A} prog msg (s : st H) (a : A) s' : raise prog msg s <> Ret a s'.
Proof. unfold raise. destruct (Nat.leb _ _); [discriminate|]. destruct (err s); destruct (Nat.leb _ _); discriminate. Qed.

Lemma get_cell_inv a (s : st H) c s' : get_cell a s = Ret c s' -> s' = s /\ nth_error (cells s) a = Some c.
Proof. unfold get_cell. destruct (nth_error (cells s) a); intro E; [|discriminate]. injection E as <- <-. auto. Qed.

Lemma get_cell_ok a (s : st H) c : nth_error (cells s) a = Some c -> get_cell a s = Ret c s.
Proof. unfold get_cell. now intros ->. Qed.

Lemma get_scope_inv i (s : st H) c s' : get_scope i s = Ret c s' -> s' = s /\ nth_error (scopes s) i = Some c /\ sc_alive c = true.
Proof.
  unfold get_scope. destruct (nth_error (scopes s) i) as [x|]; [|discriminate]. destruct (sc_alive x) eqn:E; intro X; [|discriminate].
  injection X as <- <-. auto.
Qed.

Lemma gets_inv {A} (f : st H -> A) s a s' : gets f s = Ret a s' -> s' = s /\ a = f s.
Proof. unfold gets. intro E. injection E as <- <-. auto. Qed.

Lemma modify_inv (f : st H -> st H) s u s' : modify f s = Ret u s' -> s' = f s.
Proof. unfold modify. intro E. now injection E as _ <-. Qed.

Lemma assert_inv b (s : st H) u s' : assert b s = Ret u s' -> b = true /\ s' = s.
Proof. destruct b; cbn; intro E; [|discriminate]. injection E as _ <-. auto. Qed.

Lemma alloc_inv p (s : st H) a s' : alloc p s = Ret a s' -> a = length (cells s) /\ s' = set_cells (cells s ++ [Cell NNone 1 None p]) s.
Proof. unfold alloc. intro E. injection E as <- <-. auto. Qed.

Lemma new_buf_inv b (s : st H) i s' : new_buf b s = Ret i s' -> i = length (bufs s) /\ s' = set_bufs (bufs s ++ [Some b]) s.
Proof. unfold new_buf. intro E. injection E as <- <-. auto. Qed.
Lemma new_body_inv b (s : st H) i s' : new_body b s = Ret i s' -> i = length (bodies s) /\ s' = set_bodies (bodies s ++ [Some b]) s.
Proof. unfold new_body. intro E. injection E as <- <-. auto. Qed.

End Laws.

(** Take a successful run apart. *)
Ltac inv1 :=
  match goal with
  | E : mbind ?m ?k ?s = Ret _ _ |- _ =>
    let a := fresh "a" in let s1 := fresh "s" in let E1 := fresh "E" in
    apply bind_ret_inv in E as (a & s1 & E1 & E); cbv beta in E
  | E : ret _ _ = Ret _ _ |- _ =>
    let E1 := fresh in let E2 := fresh in
    apply ret_inv in E as (E1 & E2); subst
  | E : raise _ _ _ = Ret _ _ |- _ => now destruct (raise_not_ret _ _ _ _ _ E)
  | E : error _ _ _ = Ret _ _ |- _ => now destruct (raise_not_ret _ _ _ _ _ E)
  | E : died _ = Ret _ _ |- _ => discriminate E
  | E : undef _ _ = Ret _ _ |- _ => discriminate E
  | E : nofuel _ = Ret _ _ |- _ => discriminate E
  | E : get_cell _ _ = Ret _ _ |- _ => let E1 := fresh in apply get_cell_inv in E as (E1 & E); subst
  | E : get_scope _ _ = Ret _ _ |- _ => let E1 := fresh in let E2 := fresh "A" in apply get_scope_inv in E as (E1 & E & E2); subst
  | E : gets _ _ = Ret _ _ |- _ => let E1 := fresh in apply gets_inv in E as (E1 & E); subst
  | E : modify _ _ = Ret _ _ |- _ => apply modify_inv in E; subst
  | E : assert _ _ = Ret _ _ |- _ => let E1 := fresh in apply assert_inv in E as (E & E1); subst
  | E : alloc _ _ = Ret _ _ |- _ => let E1 := fresh in let E2 := fresh in apply alloc_inv in E as (E1 & E2); subst
  | E : new_buf _ _ = Ret _ _ |- _ => let E1 := fresh in let E2 := fresh in apply new_buf_inv in E as (E1 & E2); subst
  | E : new_body _ _ = Ret _ _ |- _ => let E1 := fresh in let E2 := fresh in apply new_body_inv in E as (E1 & E2); subst
  end.
Ltac inv := repeat inv1.

(** ** Lists *)

Lemma upd_length {A} (x : A) : forall l i, length (upd i x l) = length l.
Proof. induction l; intros [|i]; cbn; auto. Qed.
Lemma upd_same {A} (x : A) : forall l i, i < length l -> nth_error (upd i x l) i = Some x.
Proof. induction l; intros [|i] L; cbn in *; try lia; auto. apply IHl. lia. Qed.
Lemma upd_other {A} (x : A) : forall l i j, i <> j -> nth_error (upd i x l) j = nth_error l j.
Proof. induction l; intros [|i] [|j] L; cbn; auto; try lia. Qed.
Lemma nth_app_l {A} (l m : list A) i x : nth_error l i = Some x -> nth_error (l ++ m) i = Some x.
Proof. intro E. rewrite nth_error_app1; auto. apply nth_error_Some. congruence. Qed.
Lemma nth_app_new {A} (l : list A) x : nth_error (l ++ [x]) (length l) = Some x.
Proof. rewrite nth_error_app2 by lia. now rewrite Nat.sub_diag. Qed.
Lemma nth_lt {A} (l : list A) i x : nth_error l i = Some x -> i < length l.
Proof. intro E. apply nth_error_Some. congruence. Qed.
