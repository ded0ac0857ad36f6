(** * What evaluation leaves alone. *)

From Coq Require Import ZArith Ascii String Lia Bool List.
From Verif Require Import Base FlAst FlState FlInterp.
Import ListNotations.

(** The names a scope declares, in order, with whether they are static. *)
Definition declared (c : scope) : list (bytes * bool) := map (fun v => (v_key v, v_static v)) (sc_vars c).

(** From [s] to [s']:
    - the same environment and function body are current, and every environment there was has the same stack of scopes;
    - every scope there was still declares the same names, except that [top] may have got new ones;
    - lines have been printed, but none have been taken back, and no error message has been written;
    - values are still allocated (or have been released, and their addresses are not used again);
    - with [quiet], a function that was not returning still isn't. *)
Record fr {H} (top : option nat) (quiet : bool) (s s' : st H) : Prop := Fr {
  fr_env : cur_env s' = cur_env s;
  fr_body : cur_body s' = cur_body s;
  fr_envs : forall i l, nth_error (envs s) i = Some l -> nth_error (envs s') i = Some l;
  fr_scopes : forall i c, nth_error (scopes s) i = Some c -> exists c', nth_error (scopes s') i = Some c' /\
    (exists new, declared c' = declared c ++ new) /\ (top <> Some i -> declared c' = declared c) /\
    sc_owner c' = sc_owner c /\ sc_class c' = sc_class c /\ (sc_alive c' = true -> sc_alive c = true);
  fr_cells : length (cells s) <= length (cells s');
  fr_bufs : length (bufs s) <= length (bufs s');
  fr_bodies : length (bodies s) <= length (bodies s');
  fr_prints : exists l, prints s' = prints s ++ l;
  fr_err : err s' = err s;
  fr_paths : import_paths s' = import_paths s;
  fr_rv : quiet = true -> cur_rv s = None -> cur_rv s' = None;
}.

(** The callbacks of the program around the engine leave these alone as well. *)
Definition tame {H} (cf : conf H) : Prop :=
  (forall f args s r s', cf_ext cf f args s = Ret r s' -> fr None true s s') /\
  (forall a s s', cf_decl cf a s = Ret tt s' -> fr None true s s') /\
  (forall a args s s', cf_inst cf a args s = Ret tt s' -> fr None true s s') /\
  (forall d s s', cf_free cf d s = Ret tt s' -> fr None true s s').
