(** * What scripts are meant to do. *)

From Coq Require Import ZArith Ascii String Lia Bool List.
From Verif Require Import Base FlAst FlState FlInterp SpecFlamingo.
Import ListNotations.

(** ** Running *)

(** With fuel [n], expression [e] evaluates from state [s] to the value at [a], leaving state [s']. *)
Definition evals {H} (cf : conf H) (n : nat) (e : expr) (s : st H) (a : addr) (s' : st H) : Prop :=
  exists x, r_eval (interp cf n) Slot e s = Ret (Some a, x) s'.

(** The outcome of evaluating [e] for its value. *)
Definition outcome {H} (cf : conf H) (n : nat) (e : expr) (s : st H) : out H (option addr * option addr) :=
  r_eval (interp cf n) Slot e s.

(** Reporting an error message. *)
Definition reports {H A} (cf : conf H) (msg : bytes) (s : st H) : out H A := raise (cf_prog cf) msg s.

(** ** Operators *)

(** The binary operators of the grammar (src/flamingo/parser.c 162-175). *)
Inductive bop := OAdd | OSub | OMul | ODiv | OMod | OPow | OEq | ONe | OLt | OLe | OGt | OGe | OAnd | OOr | OXor.
Definition spelling (o : bop) : bytes :=
  lit match o with
      | OAdd => "+" | OSub => "-" | OMul => "*" | ODiv => "/" | OMod => "%" | OPow => "**"
      | OEq => "==" | ONe => "!=" | OLt => "<" | OLe => "<=" | OGt => ">" | OGe => ">="
      | OAnd => "&&" | OOr => "||" | OXor => "^^"
      end%string.

(** What an operation comes to: a value, an error with a message, or (undefined) overflow. *)
Inductive answer := AVal (v : data) | AError (msg : bytes) | AOverflow.

Definition fits (z : Z) : answer := if ((- 2 ^ 63 <=? z) && (z <? 2 ^ 63))%Z then AVal (DInt z) else AOverflow.
Definition no_op (o : bop) (type : string) : answer :=
  AError (lit "unknown operator '" ++ spelling o ++ lit "' for type " ++ lit type).

(** On integers. Division truncates towards zero and the remainder goes with it; [pow] is pow(3) with the result
    converted to an integer. The remainder of the least integer by -1 is undefined in C, as the quotient is. *)
Definition int_answer (pow : Z -> Z -> option Z) (o : bop) (x y : Z) : answer :=
  match o with
  | OAdd => fits (x + y)
  | OSub => fits (x - y)
  | OMul => fits (x * y)
  | ODiv => if (y =? 0)%Z then AError (lit "division by zero") else fits (Z.quot x y)
  | OMod =>
    if (y =? 0)%Z then AError (lit "modulo by zero")
    else if ((x =? - 2 ^ 63) && (y =? -1))%Z then AOverflow else AVal (DInt (Z.rem x y))
  | OPow => match pow x y with Some z => AVal (DInt z) | None => AOverflow end
  | OEq => AVal (DBool (x =? y)%Z)
  | ONe => AVal (DBool (negb (x =? y)%Z))
  | OLt => AVal (DBool (x <? y)%Z)
  | OLe => AVal (DBool (x <=? y)%Z)
  | OGt => AVal (DBool (x >? y)%Z)
  | OGe => AVal (DBool (x >=? y)%Z)
  | OAnd | OOr | OXor => no_op o "integer"
  end.

(** On booleans. *)
Definition bool_answer (o : bop) (x y : bool) : answer :=
  match o with
  | OAnd => AVal (DBool (x && y))
  | OOr => AVal (DBool (x || y))
  | OXor => AVal (DBool (xorb x y))
  | OEq => AVal (DBool (Bool.eqb x y))
  | ONe => AVal (DBool (negb (Bool.eqb x y)))
  | _ => no_op o "boolean"
  end.

(** An integer of the kind a 64-bit script integer can be. *)
Definition is_int64 (z : Z) : Prop := (- 2 ^ 63 <= z < 2 ^ 63)%Z.

(** ** Integer literals *)

Definition digit (c : ascii) (d : Z) : Prop := (0 <= d <= 9)%Z /\ N_of_ascii c = Z.to_N (d + 48).

(** [denotes l z]: the digits [l], with underscores between them, are [z] in base ten. *)
Inductive denotes : bytes -> Z -> Prop :=
| denotes_nil : denotes [] 0
| denotes_underscore l z : denotes l z -> denotes (l ++ ["_"%char]) z
| denotes_digit l z c d : denotes l z -> digit c d -> denotes (l ++ [c]) (10 * z + d).

(** The integers a double can hold: 53 significant bits. *)
Definition double_integer (z : Z) : Prop := exists m e, (Z.abs m < 2 ^ 53)%Z /\ (0 <= e)%Z /\ z = (m * 2 ^ e)%Z.

(** The type of a value, as messages name it. *)
Definition type_name (v : data) : bytes :=
  lit match v with
      | DNone => "none" | DBool _ => "boolean" | DInt _ => "integer" | DStr _ => "string"
      | DVec _ => "vector" | DMap _ => "map" | DInst _ _ _ => "instance"
      | DFn f => match f_kind f with
                 | KExtern => "external function" | KFun => "function" | KClass => "class" | KPtm _ => "primitive type member"
                 end
      end%string.
Definition not_applicable (o : bop) (v : data) : answer :=
  AError (lit "unknown operator '" ++ spelling o ++ lit "' for type " ++ type_name v).

(** Whether two values are the same, or not. *)
Definition says_same (v w : data) (ans : answer) : Prop := exists b, ans = AVal (DBool b) /\ (b = true <-> same v w).
Definition says_different (v w : data) (ans : answer) : Prop := exists b, ans = AVal (DBool b) /\ (b = true <-> ~ same v w).

(** [v o w] comes to [ans]: addition concatenates strings, vectors and maps; all data can be compared with a value of its own type
    and with none; functions and instances with none only. *)
Definition op_means (pow : Z -> Z -> option Z) (o : bop) (v w : data) (ans : answer) : Prop :=
  let compared := match o with
                  | OEq => says_same v w ans
                  | ONe => says_different v w ans
                  | _ => ans = not_applicable o v
                  end in
  match v, w with
  | DInt x, DInt y => ans = int_answer pow o x y
  | DBool x, DBool y => ans = bool_answer o x y
  | DStr t, DStr u => match o with OAdd => ans = AVal (DStr (t ++ u)) | _ => compared end
  | DVec l, DVec m => match o with OAdd => ans = AVal (DVec (l ++ m)) | _ => compared end
  | DMap l, DMap m => match o with OAdd => ans = AVal (DMap (l ++ m)) | _ => compared end
  | DFn _, DFn _ | DInst _ _ _, DInst _ _ _ => ans = not_applicable o v
  | DNone, _ | _, DNone =>
    match o with
    | OEq => says_same v w ans
    | ONe => says_different v w ans
    | _ => ans = AError (lit "can only check for equality to none value")
    end
  | _, _ => ans = AError (lit "operands have incompatible types: " ++ type_name v ++ lit " and " ++ type_name w)
  end.

(** The unary operators: minus on integers, not on booleans. *)
Inductive uop := UMinus | UNot.
Definition uspelling (o : uop) : bytes := lit match o with UMinus => "-" | UNot => "!" end%string.
Definition un_answer (o : uop) (v : data) : answer :=
  match o, v with
  | UMinus, DInt x => fits (- x)
  | UNot, DBool b => AVal (DBool (negb b))
  | _, _ => AError (lit "unknown operator '" ++ uspelling o ++ lit "' for type " ++ type_name v)
  end.

(** An evaluation from [s] comes to one of [means]: a value, an error reported in state [s], or overflow. Other undefined behaviour and running
    out of fuel are left open. *)
Definition agrees {H} (cf : conf H) (s : st H) (o : out H (option addr * option addr)) (means : answer -> Prop) : Prop :=
  match o with
  | Ret (Some a, _) s' => exists v, means (AVal v) /\ holds s' v a
  | Ret (None, _) _ => False
  | Fail s' => exists msg, means (AError msg) /\ reports (A := unit) cf msg s = Fail s'
  | Died => exists msg, means (AError msg) /\ reports (A := unit) cf msg s = Died
  | Undef UOverflow => means AOverflow
  | Undef _ => True
  | NoFuel => True
  end.

(** As [agrees], with nothing left open. *)
Definition comes_to {H} (cf : conf H) (s : st H) (o : out H (option addr * option addr)) (ans : answer) : Prop :=
  match ans with
  | AVal v => exists a x s', o = Ret (Some a, x) s' /\ holds s' v a
  | AError msg => o = reports cf msg s
  | AOverflow => o = Undef UOverflow
  end.

(** Strings in a value have no NUL bytes. (The grammar admits none in a string literal, and no file name has one.) *)
Fixpoint text (v : data) : Prop :=
  match v with
  | DStr t => nul_free t
  | DVec l => (fix go (l : list data) : Prop := match l with [] => True | v :: l => text v /\ go l end) l
  | DMap l =>
    (fix go (l : list (data * data)) : Prop := match l with [] => True | (k, v) :: l => text k /\ text v /\ go l end) l
  | _ => True
  end.

(** What the program does to release the data of its objects only concerns its own state, memory errors aside. *)
Definition releases_own {H} (cf : conf H) : Prop :=
  forall d s, (exists h, cf_free cf d s = Ret tt (set_host h s)) \/ (exists u, cf_free cf d s = Undef u /\ u <> UOverflow).

(** ** Containers *)

(** The value at [a] has not been released. *)
Definition live {H} (s : st H) (a : addr) : Prop := exists c, nth_error (cells s) a = Some c /\ (0 < c_cnt c)%Z.

(** Element [z] of a vector, counting from the end if negative. (Negating the least 64-bit integer is undefined.) *)
Definition element_answer (vs : list data) (z : Z) : answer :=
  let n := Z.of_nat (length vs) in
  let out := AError (lit "index " ++ dec z ++ lit " is out of bounds for vector of size " ++ dec n) in
  if (z =? - 2 ^ 63)%Z then AOverflow
  else if ((0 <=? z) && (z <? n))%Z then AVal (nth (Z.to_nat z) vs DNone)
  else if ((- n <=? z) && (z <? 0))%Z then AVal (nth (Z.to_nat (n + z)) vs DNone)
  else out.

(** The value a map has for a key: that of the entry with the same key, none if there is none. *)
Inductive map_value : list (data * data) -> data -> data -> Prop :=
| map_value_none k : map_value [] k DNone
| map_value_here k k' v l : same k k' -> map_value ((k, v) :: l) k' v
| map_value_next k k' v l v' : ~ same k k' -> map_value l k' v' -> map_value ((k, v) :: l) k' v'.

(** The items of a map literal evaluate one after the other, key then value, to [kvs]. [keys] are the keys so far with the values they have;
    [d] are the values of the new keys, none the same as one before it. *)
Inductive items {H} (cf : conf H) (n : nat) : list (addr * data) -> list (expr * expr) -> st H -> list (addr * addr) -> st H -> Prop :=
| items_nil keys s : items cf n keys [] s [] s
| items_cons keys ke ve l s k d s1 v s2 kvs s3 :
    evals cf n ke s k s1 -> holds s1 d k ->
    Forall (fun kd => holds s1 (snd kd) (fst kd) /\ distinct (snd kd) /\ depth (snd kd) < n /\ ~ same (snd kd) d) keys -> distinct d ->
    evals cf n ve s1 v s2 ->
    items cf n (keys ++ [(k, d)]) l s2 kvs s3 ->
    items cf n keys ((ke, ve) :: l) s ((k, v) :: kvs) s3.

(** ** Members of strings and vectors *)

(** Values of kind [k] have a member [x], the function at [m] that does [p] and has not been released. *)
Definition provides {H} (s : st H) (k : kind) (x : bytes) (p : ptm) (m : addr) : Prop :=
  (exists before after, members s = before ++ (k, x, m) :: after /\ Forall (fun e => fst e <> (k, x)) before) /\
  exists c, nth_error (cells s) m = Some c /\ (0 < c_cnt c)%Z /\ c_val c = PFn (Fn (KPtm p) [] None None None).

(** The state once the value at [m] has been given to one more holder. *)
Definition held {H} (m : addr) (s : st H) : st H :=
  match nth_error (cells s) m with
  | Some c => set_cells (upd m (Cell (c_name c) (c_cnt c + 1) (c_owner c) (c_val c)) (cells s)) s
  | None => s
  end.

(** There is a scope to declare names in, and no function is returning. *)
Definition ready {H} (s : st H) : Prop :=
  cur_rv s = None /\
  exists i l c, nth_error (envs s) (cur_env s) = Some (i :: l) /\ nth_error (scopes s) i = Some c /\ sc_alive c = true.

(** Expressions evaluate one after the other. *)
Inductive evals_each {H} (cf : conf H) (n : nat) : list expr -> st H -> list addr -> st H -> Prop :=
| evals_each_nil s : evals_each cf n [] s [] s
| evals_each_cons e es s a s1 l s2 : evals cf n e s a s1 -> evals_each cf n es s1 l s2 -> evals_each cf n (e :: es) s (a :: l) s2.

(** What the members of strings, and the length of vectors, come to for the values they are called on and with. *)
Definition member_answer (p : ptm) (v : data) (args : list data) : option answer :=
  match p, v, args with
  | PtStrLen, DStr t, [] => Some (AVal (DInt (Z.of_nat (length t))))
  | PtVecLen, DVec l, [] => Some (AVal (DInt (Z.of_nat (length l))))
  | PtStartswith, DStr t, [DStr u] => Some (AVal (DBool (is_prefix u t)))
  | PtEndswith, DStr t, [DStr u] => Some (AVal (DBool (is_prefix (rev u) (rev t))))
  | _, _, _ => None
  end.

(** The state of a call to a member from state [s]: one more scope, nothing else different that shows. *)
Definition entered {H} (s t : st H) : Prop :=
  (forall a, option_map c_val (nth_error (cells t) a) = option_map c_val (nth_error (cells s) a)) /\
  bufs t = bufs s /\ bodies t = bodies s /\ prints t = prints s /\ host t = host s /\ cur_env t = cur_env s /\
  exists c, scopes t = scopes s ++ [c].

(** [f] called with the value at [x] gives that at [y]. *)
Definition calls {H} (cf : conf H) (n : nat) (f x : addr) (s : st H) (y : addr) (s' : st H) : Prop :=
  r_call (interp cf n) f None Slot [x] s = Ret (Some y) s'.

(** Element [i] of the vector at [v]. *)
Definition element {H} (s : st H) (v : addr) (i : nat) (x : addr) : Prop :=
  exists c es, nth_error (cells s) v = Some c /\ c_val c = PVec es /\ nth_error es i = Some x.

(** [f] is called with elements [i], [i+1], … of the vector at [v], [k] of them, in this order, once each, and gives [ys]. *)
Inductive applied {H} (cf : conf H) (n : nat) (f v : addr) : nat -> nat -> st H -> list addr -> st H -> Prop :=
| applied_nil i s : applied cf n f v i 0 s [] s
| applied_cons i k s x y s1 ys s2 :
    element s v i x -> calls cf n f x s y s1 -> applied cf n f v (S i) k s1 ys s2 -> applied cf n f v i (S k) s (y :: ys) s2.

(** The same up to the end of the vector, where [f] must give booleans: [zs] are copies of the elements it gives true for. *)
Inductive selected {H} (cf : conf H) (n : nat) (f v : addr) : nat -> st H -> list addr -> st H -> Prop :=
| selected_end i s c es : nth_error (cells s) v = Some c -> c_val c = PVec es -> length es <= i -> selected cf n f v i s [] s
| selected_yes i s x y s1 z s2 zs s3 :
    element s v i x -> calls cf n f x s y s1 -> holds s1 (DBool true) y -> val_copy x s1 = Ret z s2 ->
    selected cf n f v (S i) s2 zs s3 -> selected cf n f v i s (z :: zs) s3
| selected_no i s x y s1 zs s3 :
    element s v i x -> calls cf n f x s y s1 -> holds s1 (DBool false) y ->
    selected cf n f v (S i) s1 zs s3 -> selected cf n f v i s zs s3.

(** [f] is called with elements [i], …, [j - 1] of the vector at [v], which takes the state from [s] to [t], and gives booleans. *)
Inductive selecting {H} (cf : conf H) (n : nat) (f v : addr) : nat -> st H -> nat -> st H -> Prop :=
| selecting_none i s : selecting cf n f v i s i s
| selecting_yes i s x y s1 z s2 j t :
    element s v i x -> calls cf n f x s y s1 -> holds s1 (DBool true) y -> val_copy x s1 = Ret z s2 ->
    selecting cf n f v (S i) s2 j t -> selecting cf n f v i s j t
| selecting_no i s x y s1 j t :
    element s v i x -> calls cf n f x s y s1 -> holds s1 (DBool false) y ->
    selecting cf n f v (S i) s1 j t -> selecting cf n f v i s j t.

(** A value is let go of: the bytes of a string or the body of a function, which are there, are there no longer. Not of instances. *)
Definition let_go {H} (p : payload) (s s' : st H) : Prop :=
  match p with
  | PStr b _ => (exists x, nth_error (bufs s) b = Some (Some x)) /\ s' = set_bufs (upd b None (bufs s)) s
  | PFn f =>
    match f_body f with
    | None => s' = s
    | Some b => (exists x, nth_error (bodies s) b = Some (Some x)) /\ s' = set_bodies (upd b None (bodies s)) s
    end
  | PInst _ _ _ => False
  | _ => s' = s
  end.

(** From [s] to [s'] nothing has been printed, the same scopes are on the stacks and every variable has the value it had. *)
Definition still {H} (s s' : st H) : Prop :=
  prints s' = prints s /\ envs s' = envs s /\ cur_env s' = cur_env s /\ map sc_vars (scopes s') = map sc_vars (scopes s).

(** Values that [==] is for: two of one type, neither functions nor instances, or one of them none. *)
Definition comparable (v w : data) : Prop :=
  match v, w with
  | DNone, _ | _, DNone => True
  | DBool _, DBool _ | DInt _, DInt _ | DStr _, DStr _ | DVec _, DVec _ | DMap _, DMap _ => True
  | _, _ => False
  end.

(** The lines a script prints and whether it ends without an error. *)
Definition shows {H} (o : out H unit) (lines : list bytes) : Prop := exists s, o = Ret tt s /\ prints s = lines.
