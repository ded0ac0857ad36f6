(** * Saving and replaying command output (src/cmd.c, src/logging.c). *)

From Coq Require Import ZArith Ascii String Lia Bool List.
From Verif Require Import Base FileSys Frugal.
Import ListNotations.

(** cmd.c 288-329 ([cmd_log]), given what [cmd_read_out] returned: what is printed after the status line (305),
    and the file system afterwards. Simplification: the status line (295-301) is not part of the output. *)
Definition cmd_log (cw : bytes -> bool) (now : Z) (f : fs) (cookie out : bytes) : bytes * fs :=
  let shown := cstr out in
  match shown with
  | [] => ([], remove_file cw f (log_path cookie))
  | _ =>
    match write_file cw now f (log_path cookie) shown with
    | Some f' => (shown, f')
    | None => (shown, f)                  (* LOG_WARN, 321-324 *)
    end
  end.

(** logging.c 134-163 ([log_already_done]): what is printed after the status line. *)
Definition log_already_done (f : fs) (cookie : bytes) : bytes :=
  match read_file f (log_path cookie) with
  | Some c => cstr c
  | None => []
  end.
