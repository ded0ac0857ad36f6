(** * What binary operators do besides evaluating their operands. *)

From Coq Require Import ZArith Arith Ascii String Lia Bool List.
From Verif Require Import Base FlAst FlState FlInterp FlMonad SpecFlamingo FlEqProofs SpecScript FlOpProofs FlExprProofs.
Import ListNotations.
Local Open Scope nat_scope.

Section Seq.
Context {H : Type}.
Variable cf : conf H.

Lemma still_refl (s : st H) : still s s.
Proof. repeat split. Qed.
Lemma still_trans (s t u : st H) : still s t -> still t u -> still s u.
Proof. intros (A1 & A2 & A3 & A4) (B1 & B2 & B3 & B4). repeat split; congruence. Qed.

Definition calm {A} (m : M H A) : Prop := forall s a s', m s = Ret a s' -> still s s'.
Lemma calm_ret A (a : A) : calm (ret a).
Proof. intros s b s' E. injection E as <- <-. apply still_refl. Qed.
Lemma calm_bind A B (m : M H A) (k : A -> M H B) : calm m -> (forall a, calm (k a)) -> calm (mbind m k).
Proof. intros Cm Ck s b s' E. apply bind_ret_inv in E as (a & t & E1 & E2). exact (still_trans _ _ _ (Cm _ _ _ E1) (Ck _ _ _ _ E2)). Qed.
Lemma calm_get a : calm (get_cell (H := H) a).
Proof. intros s c s' E. unfold get_cell in E. destruct (nth_error (cells s) a); [|discriminate]. injection E as <- <-. apply still_refl. Qed.
Lemma calm_put a c : calm (put_cell (H := H) a c).
Proof. intros s x s' E. injection E as <- <-. repeat split. Qed.
Lemma calm_alloc p : calm (alloc (H := H) p).
Proof. intros s x s' E. injection E as <- <-. repeat split. Qed.
Lemma calm_new_buf p : calm (new_buf (H := H) p).
Proof. intros s x s' E. injection E as <- <-. repeat split. Qed.
Lemma calm_undef A u : calm (undef (H := H) (A := A) u).
Proof. discriminate. Qed.
Lemma calm_error A m : calm (error (A := A) cf m).
Proof. intros s x s' E. unfold error, raise in E. destruct (Nat.leb _ _); [discriminate|]. destruct (err s); destruct (Nat.leb _ _); discriminate. Qed.
Lemma calm_free_buf b : calm (free_buf (H := H) b).
Proof. intros s x s' E. unfold free_buf in E. destruct (nth_error (bufs s) b) as [[?|]|]; try discriminate. injection E as <- <-. repeat split. Qed.
Lemma calm_free_body b : calm (free_body (H := H) b).
Proof. intros s x s' E. unfold free_body in E. destruct (nth_error (bodies s) b) as [[?|]|]; try discriminate. injection E as <- <-. repeat split. Qed.
Lemma calm_read_buf b n : calm (read_buf (H := H) b n).
Proof. intros s x s' E. unfold read_buf in E. destruct (nth_error (bufs s) b) as [[?|]|]; try discriminate. destruct (Nat.leb _ _); [|discriminate]. injection E as <- <-. apply still_refl. Qed.
Lemma calm_read_upto b n : calm (read_upto (H := H) b n).
Proof. intros s x s' E. unfold read_upto in E. destruct (nth_error (bufs s) b) as [[?|]|]; try discriminate. destruct (_ || _); [|discriminate]. injection E as <- <-. apply still_refl. Qed.
Lemma calm_read_name n : calm (read_name (H := H) n).
Proof.
  intros s x s' E. unfold read_name in E. destruct n as [|i k|k]; try (injection E as <- <-; apply still_refl).
  destruct (nth_error (scopes s) i) as [c|]; [|discriminate]. destruct (sc_alive c); [|discriminate]. injection E as <- <-. apply still_refl.
Qed.
Lemma calm_iterM A (f : A -> M H unit) l : (forall a, calm (f a)) -> calm (iterM f l).
Proof. intro F. induction l as [|a l IH]; [apply calm_ret|]. cbn. apply calm_bind; auto. Qed.
Lemma calm_mapM A B (f : A -> M H B) l : (forall a, calm (f a)) -> calm (mapM f l).
Proof. intro F. induction l as [|a l IH]; [apply calm_ret|]. cbn. apply calm_bind; auto. intro b. apply calm_bind; auto. intro. apply calm_ret. Qed.
Lemma calm_copy a : calm (val_copy (H := H) a).
Proof.
  unfold val_copy. apply calm_bind; [apply calm_get|]. intro c. apply calm_bind.
  - destruct (c_name c); [apply calm_ret| |]; (apply calm_bind; [apply calm_read_name|intro; apply calm_ret]).
  - intro x. apply calm_bind.
    + destruct (c_val c); try apply calm_ret. apply calm_bind; [apply calm_read_upto|]. intro. apply calm_bind; [apply calm_new_buf|]. intro. apply calm_ret.
    + intros p s y s' E. injection E as <- <-. repeat split.
Qed.
Lemma calm_all2 A (eq : A -> A -> M H bool) : (forall x y, calm (eq x y)) -> forall l m, calm (all2 eq l m).
Proof. intro F. induction l as [|a l IH]; intros [|b m]; try apply calm_ret. cbn. apply calm_bind; auto. intros []; [apply IH|apply calm_ret]. Qed.
Lemma calm_map_find A (eq : A -> A -> M H bool) k v : (forall x y, calm (eq x y)) -> forall l, calm (map_find eq k v l).
Proof. intro F. induction l as [|[a b] l IH]; [apply calm_ret|]. cbn. apply calm_bind; auto. intros []; auto. Qed.
Lemma calm_map_all A (eq : A -> A -> M H bool) m : (forall x y, calm (eq x y)) -> forall l, calm (map_all eq l m).
Proof. intro F. induction l as [|[a b] l IH]; [apply calm_ret|]. cbn. apply calm_bind; [now apply calm_map_find|]. intros []; [apply IH|apply calm_ret]. Qed.
Lemma calm_val_eq : forall n x y, calm (val_eq (H := H) n x y).
Proof.
  induction n as [|n IH]; intros x y; [discriminate|]. cbn [val_eq]. apply calm_bind; [apply calm_get|]. intro c. apply calm_bind; [apply calm_get|]. intro c'.
  destruct (c_val c), (c_val c'); try apply calm_ret.
  - destruct (Nat.eqb _ _); [|apply calm_ret]. apply calm_bind; [apply calm_read_buf|]. intro. apply calm_bind; [apply calm_read_buf|]. intro. apply calm_ret.
  - destruct (Nat.eqb _ _); [|apply calm_ret]. apply calm_all2, IH.
  - destruct (Nat.eqb _ _); [|apply calm_ret]. apply calm_map_all, IH.
Qed.
Lemma calm_int_res z : calm (int_res (H := H) z).
Proof. unfold int_res. destruct (int64 z); [apply calm_ret|apply calm_undef]. Qed.
Lemma calm_equality n op l r : calm (equality (H := H) n op l r).
Proof.
  unfold equality. destruct (is_op op "=="); [apply calm_bind; [apply calm_val_eq|intro; apply calm_ret]|].
  destruct (is_op op "!="); [apply calm_bind; [apply calm_val_eq|intro; apply calm_ret]|apply calm_ret].
Qed.
Lemma calm_some_res m : calm m -> calm (some_res (H := H) m).
Proof. intro C. apply calm_bind; auto. intro. apply calm_ret. Qed.

Ltac calm := repeat first [apply calm_ret | apply calm_undef | apply calm_error | apply calm_int_res | apply calm_equality | apply calm_some_res | apply calm_alloc
  | apply calm_read_buf | apply calm_new_buf | apply calm_copy | (apply calm_mapM; intro) | (apply calm_bind; [|intro])
  | match goal with |- calm (if ?b then _ else _) => destruct b | |- calm (match ?x with _ => _ end) => destruct x end].
Lemma calm_bin_op n op l r pl pr : calm (bin_op cf n op l r pl pr).
Proof. unfold bin_op. destruct pl, pr; calm. Qed.

Variable F : releases_own cf.
Lemma calm_decref : forall n a, calm (decref cf n a).
Proof.
  induction n as [|n IH]; intro a; [discriminate|]. cbn [decref]. apply calm_bind; [apply calm_get|]. intro c. apply calm_bind; [apply calm_put|]. intros _.
  destruct (0 <? _)%Z; [apply calm_ret|]. unfold val_free. apply calm_bind; [apply calm_get|]. intro c'.
  destruct (c_val c') as [| | |b k| | |f|k i d]; try apply calm_ret; [apply calm_free_buf|destruct (f_body f); [apply calm_free_body|apply calm_ret]|].
  apply calm_bind; [|intros _; destruct d as [d|]; [|apply calm_ret]; intros s x s' E; destruct (F d s) as [(h & Q)|(u & Q & _)]; rewrite Q in E; [injection E as <- <-; repeat split|discriminate]].
  intros s x s' E. unfold scope_free in E. apply bind_ret_inv in E as (sc & t & E1 & E). unfold get_scope in E1.
  destruct (nth_error (scopes s) i) as [sc0|] eqn:N; [|discriminate]. destruct (sc_alive sc0); [|discriminate]. injection E1 as <- <-.
  apply bind_ret_inv in E as (u & t & E1 & E). assert (C : calm (iterM (fun v => match v_val v with Some a0 => decref cf n a0 | None => ret tt end) (sc_vars sc0))).
  { apply calm_iterM. intro v. destruct (v_val v); [apply IH|apply calm_ret]. }
  apply C in E1. eapply still_trans; [exact E1|]. apply bind_ret_inv in E as (sc & t' & E2 & E). unfold get_scope in E2.
  destruct (nth_error (scopes t) i) as [sc1|] eqn:N1; [|discriminate]. destruct (sc_alive sc1); [|discriminate]. injection E2 as <- <-.
  injection E as <- <-. unfold still. cbn. repeat split. clear - N1. revert i N1. generalize (scopes t) as l. induction l as [|y l IHl]; intros [|i] N; try discriminate; cbn in *.
  - injection N as ->. reflexivity.
  - f_equal. now apply IHl.
Qed.

Lemma calm_binary n d l op r : calm (binary cf n d l op r).
Proof.
  unfold binary. apply calm_bind; [apply calm_get|]. intro cl. apply calm_bind; [apply calm_get|]. intro cr.
  destruct (negb _ && negb _); [apply calm_error|].
  destruct d; [apply calm_ret| |];
    (apply calm_bind; [|intro; apply calm_bind; [apply calm_alloc|]; intro; apply calm_bind; [apply calm_decref|]; intro; apply calm_bind; [apply calm_decref|]; intro; apply calm_ret]);
    (destruct (_ || _); [calm|]; apply calm_bind; [apply calm_bin_op|]; intros []; calm).
Qed.

(** The failures of an operator itself are errors it reports. *)
Definition raises {A} (m : M H A) : Prop := forall s s', m s = Fail s' -> exists t msg, still s t /\ reports (A := unit) cf msg t = Fail s'.
Lemma raises_ret A (a : A) : raises (ret a).
Proof. discriminate. Qed.
Lemma raises_undef A u : raises (undef (H := H) (A := A) u).
Proof. discriminate. Qed.
Lemma raises_bind A B (m : M H A) (k : A -> M H B) : raises m -> calm m -> (forall a, raises (k a)) -> raises (mbind m k).
Proof.
  intros Rm Cm Rk s s' E. unfold mbind in E. destruct (m s) as [a t|t| |u|] eqn:Q; try discriminate.
  - apply Rk in E as (t' & msg & S' & R). exists t', msg. split; auto. eapply still_trans; [exact (Cm _ _ _ Q)|exact S'].
  - injection E as <-. now apply Rm.
Qed.
Lemma raises_error A m : raises (error (A := A) cf m).
Proof.
  intros s s' E. exists s, m. split; [apply still_refl|]. unfold error in E. destruct (reports_cases cf (A := A) m s) as [(t & R1 & R2)|(R1 & R2)]; congruence.
Qed.
Definition never {A} (m : M H A) : Prop := forall s s', m s <> Fail s'.
Lemma never_raises A (m : M H A) : never m -> raises m.
Proof. intros N s s' E. now apply N in E. Qed.
Lemma never_bind A B (m : M H A) (k : A -> M H B) : never m -> (forall a, never (k a)) -> never (mbind m k).
Proof. intros Nm Nk s s' E. unfold mbind in E. destruct (m s) eqn:Q; try discriminate; [now apply Nk in E|now apply Nm in Q]. Qed.
Lemma never_ret A (a : A) : never (ret a). Proof. discriminate. Qed.
Lemma never_undef A u : never (undef (H := H) (A := A) u). Proof. discriminate. Qed.
Lemma never_get a : never (get_cell (H := H) a).
Proof. intros s s'. unfold get_cell. destruct (nth_error _ _); discriminate. Qed.
Lemma never_put a c : never (put_cell (H := H) a c). Proof. discriminate. Qed.
Lemma never_alloc p : never (alloc (H := H) p). Proof. discriminate. Qed.
Lemma never_new_buf p : never (new_buf (H := H) p). Proof. discriminate. Qed.
Lemma never_free_buf b : never (free_buf (H := H) b). Proof. intros s s'. unfold free_buf. destruct (nth_error _ _) as [[]|]; discriminate. Qed.
Lemma never_free_body b : never (free_body (H := H) b). Proof. intros s s'. unfold free_body. destruct (nth_error _ _) as [[]|]; discriminate. Qed.
Lemma never_read_buf b n : never (read_buf (H := H) b n). Proof. intros s s'. unfold read_buf. destruct (nth_error _ _) as [[]|]; try discriminate. destruct (Nat.leb _ _); discriminate. Qed.
Lemma never_read_upto b n : never (read_upto (H := H) b n). Proof. intros s s'. unfold read_upto. destruct (nth_error _ _) as [[]|]; try discriminate. destruct (_ || _); discriminate. Qed.
Lemma never_read_name x : never (read_name (H := H) x).
Proof. intros s s'. unfold read_name. destruct x; try discriminate. destruct (nth_error _ _) as [c|]; try discriminate. destruct (sc_alive c); discriminate. Qed.
Lemma never_get_scope i : never (get_scope (H := H) i).
Proof. intros s s'. unfold get_scope. destruct (nth_error _ _) as [c|]; try discriminate. destruct (sc_alive c); discriminate. Qed.
Lemma never_iterM A (f : A -> M H unit) l : (forall a, never (f a)) -> never (iterM f l).
Proof. intro N. induction l; [apply never_ret|]. cbn. apply never_bind; auto. Qed.
Lemma never_mapM A B (f : A -> M H B) l : (forall a, never (f a)) -> never (mapM f l).
Proof. intro N. induction l; [apply never_ret|]. cbn. apply never_bind; auto. intro. apply never_bind; auto. intro. apply never_ret. Qed.
Lemma never_copy a : never (val_copy (H := H) a).
Proof.
  unfold val_copy. apply never_bind; [apply never_get|]. intro c. apply never_bind.
  - destruct (c_name c); [apply never_ret| |]; (apply never_bind; [apply never_read_name|intro; apply never_ret]).
  - intro x. apply never_bind; [|discriminate].
    destruct (c_val c); try apply never_ret. apply never_bind; [apply never_read_upto|]. intro. apply never_bind; [apply never_new_buf|]. intro. apply never_ret.
Qed.
Lemma never_all2 A (eq : A -> A -> M H bool) : (forall x y, never (eq x y)) -> forall l m, never (all2 eq l m).
Proof. intro G. induction l as [|a l IH]; intros [|b m]; try apply never_ret. cbn. apply never_bind; auto. intros []; [apply IH|apply never_ret]. Qed.
Lemma never_map_find A (eq : A -> A -> M H bool) k v : (forall x y, never (eq x y)) -> forall l, never (map_find eq k v l).
Proof. intro G. induction l as [|[a b] l IH]; [apply never_ret|]. cbn. apply never_bind; auto. intros []; auto. Qed.
Lemma never_map_all A (eq : A -> A -> M H bool) m : (forall x y, never (eq x y)) -> forall l, never (map_all eq l m).
Proof. intro G. induction l as [|[a b] l IH]; [apply never_ret|]. cbn. apply never_bind; [now apply never_map_find|]. intros []; [apply IH|apply never_ret]. Qed.
Lemma never_val_eq : forall n x y, never (val_eq (H := H) n x y).
Proof.
  induction n as [|n IH]; intros x y; [discriminate|]. cbn [val_eq]. apply never_bind; [apply never_get|]. intro c. apply never_bind; [apply never_get|]. intro c'.
  destruct (c_val c), (c_val c'); try apply never_ret.
  - destruct (Nat.eqb _ _); [|apply never_ret]. apply never_bind; [apply never_read_buf|]. intro. apply never_bind; [apply never_read_buf|]. intro. apply never_ret.
  - destruct (Nat.eqb _ _); [|apply never_ret]. apply never_all2, IH.
  - destruct (Nat.eqb _ _); [|apply never_ret]. apply never_map_all, IH.
Qed.
Lemma never_equality n op l r : never (equality (H := H) n op l r).
Proof.
  unfold equality. destruct (is_op op "=="); [apply never_bind; [apply never_val_eq|intro; apply never_ret]|].
  destruct (is_op op "!="); [apply never_bind; [apply never_val_eq|intro; apply never_ret]|apply never_ret].
Qed.
Lemma never_decref : forall n a, never (decref cf n a).
Proof.
  induction n as [|n IH]; intro a; [discriminate|]. cbn [decref]. apply never_bind; [apply never_get|]. intro c. apply never_bind; [apply never_put|]. intros _.
  destruct (0 <? _)%Z; [apply never_ret|]. unfold val_free. apply never_bind; [apply never_get|]. intro c'.
  destruct (c_val c') as [| | |b k| | |f|k i d]; try apply never_ret; [apply never_free_buf|destruct (f_body f); [apply never_free_body|apply never_ret]|].
  apply never_bind; [|intros _; destruct d as [d|]; [|apply never_ret]; intros s s' E; destruct (F d s) as [(h & Q)|(u & Q & _)]; rewrite Q in E; discriminate].
  unfold scope_free. apply never_bind; [apply never_get_scope|]. intro. apply never_bind; [apply never_iterM; intro v; destruct (v_val v); [apply IH|apply never_ret]|].
  intro. apply never_bind; [apply never_get_scope|]. discriminate.
Qed.
Ltac nev := repeat first [apply raises_ret | apply raises_undef | apply raises_error | apply never_raises, never_equality | apply never_raises, never_read_buf | apply never_raises, never_new_buf
  | (apply never_raises, never_mapM; intro; apply never_copy)
  | (apply never_raises, never_mapM; intro; apply never_bind; [apply never_copy|intro; apply never_bind; [apply never_copy|intro; apply never_ret]])
  | (progress unfold some_res) | (progress unfold int_res) | (apply raises_bind; [| |intro])
  | match goal with |- raises (if ?b then _ else _) => destruct b | |- raises (match ?x with _ => _ end) => destruct x end].
Lemma raises_bin_op n op l r pl pr : raises (bin_op cf n op l r pl pr).
Proof. unfold bin_op. destruct pl, pr; nev; calm. Qed.
Lemma raises_binary n d l op r : raises (binary cf n d l op r).
Proof.
  unfold binary. apply raises_bind; [apply never_raises, never_get|apply calm_get|]. intro cl. apply raises_bind; [apply never_raises, never_get|apply calm_get|]. intro cr.
  destruct (negb _ && negb _); [apply raises_error|].
  destruct d; [apply raises_ret| |];
    (apply raises_bind; [| |intro p; apply never_raises, never_bind; [apply never_alloc|]; intro; apply never_bind; [apply never_decref|]; intro; apply never_bind; [apply never_decref|]; intro; apply never_ret];
     destruct (_ || _); [nev| |calm|]; [apply raises_bind; [apply raises_bin_op|apply calm_bin_op|]; intros []; nev|apply calm_bind; [apply calm_bin_op|]; intros []; calm]).
Qed.

Lemma calm_deliver_opt d o : calm (deliver_opt (H := H) d o).
Proof.
  destruct o as [a|]; [|apply calm_ret]. destruct d; cbn; try apply calm_ret. intros s x s' E. destruct (cur_rv s); [discriminate|]. injection E as <- <-. repeat split.
Qed.

Lemma bin_sequence n d e1 op e2 s r s' : r_eval (interp cf (S n)) d (EBin e1 op e2) s = Ret r s' ->
  exists a s1 b s2, evals cf n e1 s a s1 /\ evals cf n e2 s1 b s2 /\ still s2 s'.
Proof.
  rewrite eval_S. cbn [eval_]. unfold plain. intro E. apply bind_ret_inv in E as (o & t & E & Er). injection Er as _ <-.
  apply bind_ret_inv in E as (a & s1 & E1 & E). apply bind_ret_inv in E as (b & s2 & E2 & E). apply bind_ret_inv in E as (o' & t' & E3 & E).
  exists a, s1, b, s2. split; [now apply value_inv|]. split; [now apply value_inv|]. eapply still_trans; [exact (calm_binary _ _ _ _ _ _ _ _ E3)|exact (calm_deliver_opt _ _ _ _ _ E)].
Qed.
Lemma both_fail n e s s' : value (interp cf n) e s = Fail s' -> outcome cf n e s = Fail s'.
Proof.
  unfold value, both, outcome, mbind, ret. destruct (r_eval (interp cf n) Slot e s) as [[[a|] x] t|t| |u|]; try discriminate. intro Q. now injection Q as <-.
Qed.
Lemma bin_failure n d e1 op e2 s s' : r_eval (interp cf (S n)) d (EBin e1 op e2) s = Fail s' ->
  outcome cf n e1 s = Fail s' \/
  exists a s1, evals cf n e1 s a s1 /\
    (outcome cf n e2 s1 = Fail s' \/
     exists b s2 t msg, evals cf n e2 s1 b s2 /\ still s2 t /\ reports (A := unit) cf msg t = Fail s').
Proof.
  rewrite eval_S. cbn [eval_]. unfold plain, mbind.
  destruct (value (interp cf n) e1 s) as [a s1|s1| |u|] eqn:E1; try discriminate; [|intro E; injection E as <-; left; now apply both_fail].
  destruct (value (interp cf n) e2 s1) as [b s2|s2| |u|] eqn:E2; try discriminate; [|intro E; injection E as <-; right; exists a, s1; split; [now apply value_inv|left; now apply both_fail]].
  intro E. right. exists a, s1. split; [now apply value_inv|]. right. exists b, s2.
  destruct (binary cf (r_fuel (interp cf n)) d a op b s2) as [o t|t| |u|] eqn:E3; try discriminate.
  - destruct (deliver_opt d o t) eqn:D; try discriminate. destruct o as [x|]; [|discriminate]. destruct d; try discriminate. cbn in D. destruct (cur_rv t); discriminate.
  - injection E as <-. apply raises_binary in E3 as (t' & msg & S' & R'). exists t', msg. split; [now apply value_inv|auto].
Qed.
End Seq.
