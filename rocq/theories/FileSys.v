(** * The file system as Bob sees it. *)

From Coq Require Import ZArith Ascii String Lia Bool List.
From Verif Require Import Base.
Import ListNotations.

(** What a path string leads to. [t] is [st_mtime], in whole seconds. [Blocked]: the path cannot be examined
    ([stat] fails with an error other than ENOENT, e.g. EACCES or ELOOP) nor opened. *)
Inductive entry :=
| Absent
| File (c : bytes) (t : Z)
| Dir (t : Z)
| Blocked.

(** Paths are plain strings: two different strings naming one file through links or ".." are different
    entries here; where that matters (install.c) the resolution function is explicit. *)
Definition fs := bytes -> entry.

Definition fs_set (f : fs) (p : bytes) (e : entry) : fs := fun q => if bytes_eqb q p then e else f q.

Inductive stat_res := StatOk (t : Z) | StatNoEnt | StatErr.

(** stat(2). *)
Definition stat (f : fs) (p : bytes) : stat_res :=
  match f p with
  | Absent => StatNoEnt
  | File _ t | Dir t => StatOk t
  | Blocked => StatErr
  end.

(** fopen(p, "r") and reading to the end. Simplification: a directory cannot be opened. *)
Definition read_file (f : fs) (p : bytes) : option bytes :=
  match f p with File c _ => Some c | _ => None end.

Section Write.
(** Which paths the process may create or overwrite (permissions, read-only media, missing parent). *)
Variable can_write : bytes -> bool.

(** fopen(p, "w"), writing [c], fclose; [None] when fopen fails. Simplification: an opened file is always
    written completely. *)
Definition write_file (now : Z) (f : fs) (p c : bytes) : option fs :=
  if can_write p then
    match f p with
    | Absent | File _ _ => Some (fs_set f p (File c now))
    | _ => None
    end
  else None.

(** remove(p), result ignored by the caller. *)
Definition remove_file (f : fs) (p : bytes) : fs :=
  if can_write p then match f p with File _ _ => fs_set f p Absent | _ => f end else f.
End Write.

Lemma fs_set_same f p e : fs_set f p e p = e.
Proof. unfold fs_set. now rewrite bytes_eqb_refl. Qed.
Lemma fs_set_diff f p e q : q <> p -> fs_set f p e q = f q.
Proof. intros H. unfold fs_set. apply bytes_eqb_neq in H. now rewrite H. Qed.

Lemma write_file_same cw now f p c f' : write_file cw now f p c = Some f' -> f' p = File c now.
Proof.
  unfold write_file. destruct (cw p); [|discriminate]. destruct (f p); try discriminate; intros H; injection H as <-; apply fs_set_same.
Qed.
Lemma write_file_diff cw now f p c f' q : write_file cw now f p c = Some f' -> q <> p -> f' q = f q.
Proof.
  unfold write_file. destruct (cw p); [|discriminate].
  destruct (f p); try discriminate; intros H; injection H as <-; intros Hq; now apply fs_set_diff.
Qed.
Lemma remove_file_diff cw f p q : q <> p -> remove_file cw f p q = f q.
Proof. unfold remove_file. intros H. destruct (cw p); auto. destruct (f p); auto. now apply fs_set_diff. Qed.
