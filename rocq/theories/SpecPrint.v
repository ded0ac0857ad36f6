(** * What scripts are meant to print, and to check. *)

From Coq Require Import ZArith Ascii String Lia Bool List.
From Verif Require Import Base FlAst FlState SpecFlamingo SpecScript.
Import ListNotations.

(** [numeral l z]: the digits [l], without leading zeros, are [z] in base ten. *)
Definition numeral (l : bytes) (z : Z) : Prop :=
  denotes l z /\ Forall (fun c => exists d, digit c d) l /\ (l = lit "0" \/ exists c m, l = c :: m /\ c <> "0"%char).
(** The same, with a sign if it is negative. *)
Definition decimal (l : bytes) (z : Z) : Prop := numeral l z \/ exists m, l = lit "-" ++ m /\ numeral m (- z) /\ (z < 0)%Z.

(** One after the other, with commas between them. *)
Definition listed (l : list bytes) : bytes :=
  match l with
  | [] => []
  | x :: l => x ++ concat (map (fun y => lit ", " ++ y) l)
  end.
Definition double_quote : ascii := """"%char.

(** [written v l]: inside of a vector or map, or anywhere if it isn't a string, value [v] is written [l]. A string ends at its first NUL byte, if it has one. Functions and
    instances aren't written by what they are, so there is no case for them. *)
Inductive written : data -> bytes -> Prop :=
| written_none : written DNone (lit "<none>")
| written_true : written (DBool true) (lit "true")
| written_false : written (DBool false) (lit "false")
| written_int z l : decimal l z -> written (DInt z) l
| written_str t : written (DStr t) ([double_quote] ++ cstr t ++ [double_quote])
| written_vec vs ls : Forall2 written vs ls -> written (DVec vs) (lit "[" ++ listed ls ++ lit "]")
| written_map kvs ls : Forall2 (fun kv l => written (fst kv) (fst l) /\ written (snd kv) (snd l)) kvs ls ->
    written (DMap kvs) (lit "{" ++ listed (map (fun l => fst l ++ lit ": " ++ snd l) ls) ++ lit "}").

(** A line that is printed for a value: for strings, the string itself. *)
Inductive line : data -> bytes -> Prop :=
| line_str t : line (DStr t) (cstr t)
| line_other v l : (forall t, v <> DStr t) -> written v l -> line v l.

(** There is no function and no instance in the value. *)
Fixpoint printable (v : data) : Prop :=
  match v with
  | DVec l => (fix go (l : list data) : Prop := match l with [] => True | v :: l => printable v /\ go l end) l
  | DMap l => (fix go (l : list (data * data)) : Prop := match l with [] => True | (k, v) :: l => printable k /\ printable v /\ go l end) l
  | DFn _ | DInst _ _ _ => False
  | _ => True
  end.

(** No string in the value has a double quote. *)
Fixpoint unquoted (v : data) : Prop :=
  match v with
  | DStr t => ~ In double_quote t
  | DVec l => (fix go (l : list data) : Prop := match l with [] => True | v :: l => unquoted v /\ go l end) l
  | DMap l => (fix go (l : list (data * data)) : Prop := match l with [] => True | (k, v) :: l => unquoted k /\ unquoted v /\ go l end) l
  | _ => True
  end.

(** The value at [a] is called [x], as far as messages and [print] are concerned. *)
Definition called {H} (s : st H) (a : addr) (x : bytes) : Prop :=
  exists c, nth_error (cells s) a = Some c /\
  (c_name c = NOwn x \/ exists i sc, c_name c = NKey i x /\ nth_error (scopes s) i = Some sc /\ sc_alive sc = true).

(** From [s] to [t] the lines [ls] have been printed and nothing else has happened that a script could see. *)
Definition prints_only {H} (ls : list bytes) (s t : st H) : Prop :=
  prints t = prints s ++ ls /\ envs t = envs s /\ cur_env t = cur_env s /\ map sc_vars (scopes t) = map sc_vars (scopes s).
