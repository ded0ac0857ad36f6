(** * What script values mean, without the interpreter. *)

From Coq Require Import ZArith Ascii String Lia Bool List Permutation.
From Verif Require Import Base FlAst FlState.
Import ListNotations.

(** ** Values as data *)

(** Functions and instances have an identity: [DFn] holds the function itself, [DInst] its class, scope and data. *)
Inductive data :=
| DNone
| DBool (b : bool)
| DInt (z : Z)
| DStr (s : bytes)
| DVec (l : list data)
| DMap (l : list (data * data))
| DFn (f : fnval)
| DInst (c i : nat) (d : option nat).

(** [holds s v a]: in state [s] the value at [a] is [v]. *)
Fixpoint holds {H} (s : st H) (v : data) (a : addr) {struct v} : Prop :=
  exists c, nth_error (cells s) a = Some c /\
  match v with
  | DNone => c_val c = PNone
  | DBool b => c_val c = PBool b
  | DInt z => c_val c = PInt z
  | DStr t => exists b n u, c_val c = PStr b n /\ nth_error (bufs s) b = Some (Some u) /\ n <= length u /\ t = firstn n u
  | DVec vs => exists es, c_val c = PVec es /\
      (fix go (vs : list data) (es : list addr) {struct vs} : Prop :=
         match vs, es with
         | [], [] => True
         | v :: vs, e :: es => holds s v e /\ go vs es
         | _, _ => False
         end) vs es
  | DMap kvs => exists es, c_val c = PMap es /\
      (fix go (kvs : list (data * data)) (es : list (addr * addr)) {struct kvs} : Prop :=
         match kvs, es with
         | [], [] => True
         | (k, v) :: kvs, (e, e') :: es => holds s k e /\ holds s v e' /\ go kvs es
         | _, _ => False
         end) kvs es
  | DFn f => c_val c = PFn f
  | DInst k i d => c_val c = PInst k i d
  end.

(** How deeply a value is nested. *)
Fixpoint depth (v : data) : nat :=
  match v with
  | DVec l => S (fold_right (fun v n => Nat.max (depth v) n) 0 l)
  | DMap l => S (fold_right (fun kv n => Nat.max (Nat.max (depth (fst kv)) (depth (snd kv))) n) 0 l)
  | _ => 0
  end.

(** ** Sameness: what [==] is meant to decide. Maps are the same if they have the same entries, in any order. *)
Inductive same : data -> data -> Prop :=
| same_none : same DNone DNone
| same_bool b : same (DBool b) (DBool b)
| same_int z : same (DInt z) (DInt z)
| same_str t : same (DStr t) (DStr t)
| same_vec l m : Forall2 same l m -> same (DVec l) (DVec m)
| same_map l m p : Permutation m p -> Forall2 (fun a b => same (fst a) (fst b) /\ same (snd a) (snd b)) l p -> same (DMap l) (DMap m)
| same_fn f g : fn_eqb f g = true -> same (DFn f) (DFn g)
| same_inst c i d : same (DInst c i d) (DInst c i d).

(** No map in the value has two keys that are the same. *)
Fixpoint distinct (v : data) : Prop :=
  match v with
  | DVec l => (fix go (l : list data) : Prop := match l with [] => True | v :: l => distinct v /\ go l end) l
  | DMap l =>
    ForallOrdPairs (fun a b => ~ same (fst a) (fst b)) l /\
    (fix go (l : list (data * data)) : Prop := match l with [] => True | (k, v) :: l => distinct k /\ distinct v /\ go l end) l
  | _ => True
  end.
