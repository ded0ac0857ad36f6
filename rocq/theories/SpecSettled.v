(** * Scripts without assignments to elements. *)

From Coq Require Import ZArith Ascii String Lia Bool List.
From Verif Require Import Base FlAst.
Import ListNotations.

(** Nowhere in it is there an assignment of the form [a[i] = e]. *)
Fixpoint calm_expr (e : expr) : bool :=
  match e with
  | ENone | EBool _ | ENum _ | EStr _ | EId _ | EOther _ => true
  | ELambda _ b => calm_body b
  | EVec es => forallb calm_expr es
  | EMap kvs => forallb (fun kv => calm_expr (fst kv) && calm_expr (snd kv)) kvs
  | ECall f args => calm_expr f && forallb calm_expr args
  | EParen e | EUn _ e | EAccess e _ => calm_expr e
  | EBin a _ b | EIndex a b => calm_expr a && calm_expr b
  end
with calm_body (b : fbody) : bool := match b with BBlock ss => forallb calm_stmt ss | BExpr e => calm_expr e end
with calm_stmt (x : stmt) : bool :=
  match x with
  | SBlock ss | SFun _ _ _ ss | SClass _ _ _ ss => forallb calm_stmt ss
  | SProto _ _ _ | SImport _ _ => true
  | SPrint e | SAssert e _ | SExpr e => calm_expr e
  | SReturn e | SLet _ _ e => match e with Some e => calm_expr e | None => true end
  | SAssign l _ e => calm_lhs l && calm_expr e
  end
with calm_lhs (l : lhs) : bool := match l with LId _ => true | LAccess e _ => calm_expr e | LIndex _ _ => false end.
Definition no_element_assignment (ss : list stmt) : Prop := forallb calm_stmt ss = true.
