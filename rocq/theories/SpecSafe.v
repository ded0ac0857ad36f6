(** * Scripts whose functions don't assign to variables. *)

From Coq Require Import ZArith Ascii String Lia Bool List.
From Verif Require Import Base FlAst FlState.
Import ListNotations.

(** No element of a vector or map is assigned to, and no function, lambda or class has an assignment or an import in it. [top]: outside of all of them. *)
Fixpoint still_expr (e : expr) : bool :=
  match e with
  | ENone | EBool _ | ENum _ | EStr _ | EId _ | EOther _ => true
  | ELambda _ b => still_body b
  | EVec es => forallb still_expr es
  | EMap kvs => forallb (fun kv => still_expr (fst kv) && still_expr (snd kv)) kvs
  | ECall f args => still_expr f && forallb still_expr args
  | EParen e | EUn _ e | EAccess e _ => still_expr e
  | EBin a _ b | EIndex a b => still_expr a && still_expr b
  end
with still_body (b : fbody) : bool := match b with BBlock ss => forallb (still_stmt false) ss | BExpr e => still_expr e end
with still_stmt (top : bool) (x : stmt) : bool :=
  match x with
  | SBlock ss => forallb (still_stmt top) ss
  | SFun _ _ _ ss | SClass _ _ _ ss => forallb (still_stmt false) ss
  | SProto _ _ _ => true
  | SImport _ _ => top
  | SPrint e | SAssert e _ | SExpr e => still_expr e
  | SReturn e | SLet _ _ e => match e with Some e => still_expr e | None => true end
  | SAssign l _ e => top && still_lhs l && still_expr e
  end
with still_lhs (l : lhs) : bool := match l with LId _ => true | LAccess e _ => still_expr e | LIndex _ _ => false end.
Definition assigns_carefully (ss : list stmt) : Prop := forallb (still_stmt true) ss = true.

(** A string, a function or the scope or data of an instance used after it was released, or released twice. *)
Definition uses_freed (u : ub) : Prop := u = UFreedStr \/ u = UFreedBody \/ u = UFreedScope \/ u = UDoubleFree.
