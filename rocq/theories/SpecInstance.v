(** * What classes, instances and their members are meant to be. *)

From Coq Require Import ZArith Ascii String Lia Bool List.
From Verif Require Import Base FlAst FlState FlInterp SpecFlamingo SpecScript SpecScope SpecImport SpecCall.
Import ListNotations.

(** The value at [a] is an instance of the class at [k]; its members are the names of scope [i]. *)
Definition instance_at {H} (s : st H) (a k : addr) (i : nat) : Prop := exists d, payload_at s a (PInst k i d).

(** The value at [a] is a class; its static members are the names of scope [i]. *)
Definition class_with {H} (s : st H) (a : addr) (i : nat) : Prop := exists f, payload_at s a (PFn f) /\ f_kind f = KClass /\ f_scope f = Some i.

(** Neither an instance nor a class. *)
Definition no_members (p : payload) : Prop := match p with PInst _ _ _ => False | PFn f => f_kind f <> KClass | _ => True end.

(** Values of this kind have no built-in member [x]. *)
Definition not_built_in {H} (s : st H) (p : payload) (x : bytes) : Prop := Forall (fun m => ~ (fst (fst m) = kind_of p /\ snd (fst m) = x)) (members s).

(** How messages call the type of a value. *)
Definition called (p : payload) : bytes :=
  lit match p with
      | PNone => "none" | PBool _ => "boolean" | PInt _ => "integer" | PStr _ _ => "string" | PVec _ => "vector" | PMap _ => "map" | PInst _ _ _ => "instance"
      | PFn f => match f_kind f with KExtern => "external function" | KFun => "function" | KClass => "class" | KPtm _ => "primitive type member" end
      end%string.

(** Neither returns nor is a block. *)
Definition goes_on (y : stmt) : Prop := (forall e, y <> SReturn e) /\ (forall ss, y <> SBlock ss).

(** The names declared with [static] among the statements, in order. *)
Inductive statics : list stmt -> list bytes -> Prop :=
| statics_none : statics [] []
| statics_let x e ss xs : statics ss xs -> statics (SLet true x e :: ss) (x :: xs)
| statics_fun x ps b ss xs : statics ss xs -> statics (SFun true x ps b :: ss) (x :: xs)
| statics_class x ps b ss xs : statics ss xs -> statics (SClass true x ps b :: ss) (x :: xs)
| statics_proto x ps ss xs : statics ss xs -> statics (SProto true x ps :: ss) (x :: xs)
| statics_other y ss xs : (forall x e, y <> SLet true x e) -> (forall x ps b, y <> SFun true x ps b) -> (forall x ps b, y <> SClass true x ps b) -> (forall x ps, y <> SProto true x ps) ->
    statics ss xs -> statics (y :: ss) xs.

(** The body of a class called from [s], in a function with environment [e] and scopes [l], has ended in [t]: what it declared is in scope [i]. The new instance, at [a], is then
    there in [t'], all else being as it was. *)
Definition becomes {H} (k : addr) (e : nat) (l : list nat) (i : nat) (a : addr) (s t t' : st H) : Prop :=
  cells t' = cells t ++ [Cell NNone 1 None (PInst k i None)] /\ a = length (cells t) /\
  (exists c, nth_error (scopes t) i = Some c /\ sc_alive c = true /\ scopes t' = upd i (Scope (sc_vars c) (Some a) (sc_class c) true) (scopes t)) /\
  envs t' = upd e l (envs t) /\ cur_env t' = cur_env s /\ cur_body t' = cur_body s /\ cur_rv t' = cur_rv t /\
  bufs t' = bufs t /\ bodies t' = bodies t /\ members t' = members t /\ import_paths t' = import_paths t /\ err t' = err t /\ prints t' = prints t /\ host t' = host t.
