(** * Builds in debugging mode (src/main.c, src/cmd.c). *)

From Coq Require Import ZArith Ascii String Lia Bool List.
From Verif Require Import Base FileSys Build.
Import ListNotations.

(** cmd.c 241-249: with [debugging] set, [cmd_read_out] returns the empty string, whatever the program wrote. *)
Definition unread (r : tool_result) : tool_result :=
  match r with
  | ToolOk _ product => ToolOk [] product
  | ToolFail _ rest => ToolFail [] rest
  end.

(** main.c 103-109 ([BOB_BUILD_DEBUGGING]) and cmd.c 156-170, 181-186, 201-204: programs are run without a pipe.
    They write to the terminal themselves and do what they do otherwise, but Bob reads nothing of what they wrote:
    no list of headers (cc.c 67-68), no output to keep (cmd.c 289). main.c 107-113, cc.c 237: one worker.
    The record of the headers is still written (cc.c 75-107), from the empty output. *)
Definition debugged (E : env) : env := Env
  1
  (can_write E)
  (clock E)
  (fun fl src f => option_map (fun _ => []) (cc_deps E fl src f))
  (fun fl src f => unread (cc_obj E fl src f))
  (fun k prefix out srcs fl f => unread (ld E k prefix out srcs fl f))
  (installer E)
  (lib_prefix E).
