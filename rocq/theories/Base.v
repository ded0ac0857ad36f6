(** * Common definitions: byte strings, C strings, outcomes of C functions. *)

From Coq Require Import ZArith Ascii String Lia Bool List.
Import ListNotations.
Open Scope list_scope.

(** Byte strings. A C [char*] of known length, or the content of a file. *)
Definition bytes := list ascii.

(** String literals. *)
Definition lit (s : string) : bytes := list_ascii_of_string s.

Definition byte_eqb (a b : ascii) : bool := Ascii.eqb a b.

Fixpoint bytes_eqb (a b : bytes) : bool :=
  match a, b with
  | [], [] => true
  | x :: a', y :: b' => byte_eqb x y && bytes_eqb a' b'
  | _, _ => false
  end.

Lemma byte_eqb_eq a b : byte_eqb a b = true <-> a = b.
Proof. apply Ascii.eqb_eq. Qed.

Lemma byte_eqb_refl a : byte_eqb a a = true.
Proof. now apply byte_eqb_eq. Qed.

Lemma byte_eqb_neq a b : byte_eqb a b = false <-> a <> b.
Proof. apply Ascii.eqb_neq. Qed.

Lemma bytes_eqb_eq a : forall b, bytes_eqb a b = true <-> a = b.
Proof.
  induction a as [|x a IH]; intros [|y b]; simpl; try (split; congruence).
  rewrite andb_true_iff, byte_eqb_eq, IH. split.
  - intros [-> ->]; reflexivity.
  - intros H; inversion H; auto.
Qed.

Lemma bytes_eqb_refl a : bytes_eqb a a = true.
Proof. now apply bytes_eqb_eq. Qed.

Lemma bytes_eqb_neq a b : bytes_eqb a b = false <-> a <> b.
Proof.
  split.
  - intros H E. apply bytes_eqb_eq in E. congruence.
  - intros H. destruct (bytes_eqb a b) eqn:E; auto. apply bytes_eqb_eq in E. contradiction.
Qed.

Definition bytes_dec (a b : bytes) : {a = b} + {a <> b} := list_eq_dec ascii_dec a b.

Lemma bytes_eqb_sym a b : bytes_eqb a b = bytes_eqb b a.
Proof.
  destruct (bytes_eqb a b) eqn:E.
  - apply bytes_eqb_eq in E; subst. symmetry; apply bytes_eqb_refl.
  - symmetry. apply bytes_eqb_neq. apply bytes_eqb_neq in E. congruence.
Qed.

(** Particular bytes. *)
Definition NUL : ascii := "000"%char.
Definition NL : ascii := "010"%char.
Definition SLASH : ascii := "/"%char.
Definition USCORE : ascii := "_"%char.
Definition DOT : ascii := "."%char.
Definition COLON : ascii := ":"%char.
Definition SPACE : ascii := " "%char.
Definition BACKSLASH : ascii := "\"%char.

(** The C string stored at the start of a byte buffer: everything before the first NUL. *)
Fixpoint cstr (s : bytes) : bytes :=
  match s with
  | [] => []
  | c :: s' => if byte_eqb c NUL then [] else c :: cstr s'
  end.

Definition nul_free (s : bytes) : Prop := ~ In NUL s.

Fixpoint has_byte (c : ascii) (s : bytes) : bool :=
  match s with
  | [] => false
  | x :: s' => byte_eqb x c || has_byte c s'
  end.

Lemma has_byte_In c s : has_byte c s = true <-> In c s.
Proof.
  induction s as [|x s IH]; simpl.
  - split; [congruence | tauto].
  - rewrite orb_true_iff, byte_eqb_eq, IH. tauto.
Qed.

Lemma has_byte_not_In c s : has_byte c s = false <-> ~ In c s.
Proof.
  rewrite <- has_byte_In. destruct (has_byte c s); split; congruence.
Qed.

Lemma cstr_nul_free s : nul_free s -> cstr s = s.
Proof.
  unfold nul_free. induction s as [|c s IH]; simpl; intros H; auto.
  destruct (byte_eqb c NUL) eqn:E.
  - apply byte_eqb_eq in E. exfalso; apply H; auto.
  - f_equal. apply IH. tauto.
Qed.

Lemma cstr_is_nul_free s : nul_free (cstr s).
Proof.
  unfold nul_free. induction s as [|c s IH]; simpl; auto.
  destruct (byte_eqb c NUL) eqn:E; simpl; auto.
  apply byte_eqb_neq in E. intros [H|H]; auto.
Qed.

Lemma cstr_length s : length (cstr s) <= length s.
Proof. induction s as [|c s IH]; simpl; auto. destruct (byte_eqb c NUL); simpl; lia. Qed.

Lemma cstr_app_nul_free a b : nul_free a -> cstr (a ++ b) = a ++ cstr b.
Proof.
  unfold nul_free. induction a as [|c a IH]; simpl; intros H; auto.
  destruct (byte_eqb c NUL) eqn:E.
  - apply byte_eqb_eq in E. exfalso; apply H; auto.
  - f_equal. apply IH. tauto.
Qed.

Lemma nul_free_app a b : nul_free (a ++ b) <-> nul_free a /\ nul_free b.
Proof. unfold nul_free. rewrite in_app_iff. tauto. Qed.

Lemma nul_free_cons c b : nul_free (c :: b) <-> c <> NUL /\ nul_free b.
Proof. unfold nul_free. simpl. split; intros H; [split|]; try tauto; intro; intuition congruence. Qed.

(** [strncmp(a, b, n) == 0]-style prefix test: is [p] a prefix of [s]? *)
Fixpoint is_prefix (p s : bytes) : bool :=
  match p, s with
  | [], _ => true
  | x :: p', y :: s' => byte_eqb x y && is_prefix p' s'
  | _ :: _, [] => false
  end.

Lemma is_prefix_app p : forall s, is_prefix p s = true <-> exists r, s = p ++ r.
Proof.
  induction p as [|x p IH]; intros s; simpl.
  - split; eauto.
  - destruct s as [|y s].
    + split; [congruence|]. intros [r H]; discriminate.
    + rewrite andb_true_iff, byte_eqb_eq, IH. split.
      * intros [-> [r ->]]. eauto.
      * intros [r H]. inversion H; subst. eauto.
Qed.

(** Outcomes of C functions: a value, a reported error (negative return), a failed [assert]
    (abort), undefined behaviour, and exhaustion of interpreter fuel. *)
Inductive res (A : Type) : Type :=
| Ok (a : A)
| Err
| Abort
| UB
| OutOfFuel.
Arguments Ok {A} a.
Arguments Err {A}.
Arguments Abort {A}.
Arguments UB {A}.
Arguments OutOfFuel {A}.

Definition bind {A B} (r : res A) (f : A -> res B) : res B :=
  match r with
  | Ok a => f a
  | Err => Err
  | Abort => Abort
  | UB => UB
  | OutOfFuel => OutOfFuel
  end.
