(** * Error messages and imports. *)

From Coq Require Import ZArith Arith Ascii String Lia Bool List.
From Verif Require Import Base FlAst FlState FlInterp FlMonad SpecFlamingo SpecScript SpecFrame SpecScope SpecImport FlMemberProofs FlScopeProofs FlErrorProofs FlFuel.
Import ListNotations.
Local Open Scope nat_scope.

Section Imports.
Context {H : Type}.
Variable cf : conf H.

(** ** Errors *)
Lemma polite_of told : reports_failures cf told -> polite cf told.
Proof. intro P. exact P. Qed.

Lemma fits_reported {A} msg (s : st H) : err s = None -> length (line cf msg) < 256 -> reports cf msg s = @Fail H A (with_error (line cf msg) s).
Proof.
  intros N L. unfold reports, raise, line in *. rewrite N. assert (length msg < 256) by (rewrite ?app_length in L; lia).
  destruct (Nat.leb_spec ERR_SIZE (length msg)) as [Q|_]; [unfold ERR_SIZE in Q; lia|].
  destruct (Nat.leb_spec ERR_SIZE (length (cf_prog cf ++ lit ":0:0: " ++ msg))) as [Q|_]; [unfold ERR_SIZE in Q; lia|]. reflexivity.
Qed.
Lemma long_fatal {A} msg (s : st H) : err s = None -> 256 <= length (line cf msg) -> reports cf msg s = @Died H A.
Proof.
  intros N L. unfold reports, raise, line in *. rewrite N. destruct (Nat.leb_spec ERR_SIZE (length msg)) as [Q|Q]; [reflexivity|].
  destruct (Nat.leb_spec ERR_SIZE (length (cf_prog cf ++ lit ":0:0: " ++ msg))) as [_|Q']; [reflexivity|]. unfold ERR_SIZE in Q'. lia.
Qed.

Lemma failures_explained told : reports_failures cf told -> forall n paths h ss, orderly cf told (run cf n paths h ss).
Proof.
  intros P n paths h ss. destruct (run cf n paths h ss) as [u s|s| |u|] eqn:E; try exact I.
  - assert (Q : sound cf told (mbind (@new_members H) (fun ms => modify (set_engine None None ms paths None)))).
    { apply sound_bind; [apply new_members_snd|]. intro. apply sound_modify. reflexivity. }
    specialize (Q (blank paths h) eq_refl). unfold run, create in E. destruct (mbind _ _ (blank paths h)) as [u' t|t| | |]; try discriminate.
    assert (X : sound cf told (exec cf n ss)) by (apply iterM_snd; intro; now apply interp_sound). specialize (X t Q). rewrite E in X. exact X.
  - exact (run_explained cf told P _ _ _ _ _ E).
Qed.
Lemma failures_explained_from told : reports_failures cf told -> forall n ss s, err s = None -> orderly cf told (exec cf n ss s).
Proof.
  intros P n ss s N. assert (X : sound cf told (exec cf n ss)) by (apply iterM_snd; intro; now apply interp_sound). specialize (X s N).
  destruct (exec cf n ss s) as [u s'|s'| |u|]; auto.
Qed.

Lemma unknown_reported n x s : unknown s x -> err s = None -> length (line cf (lit "could not find identifier: " ++ cstr x)) < 256 ->
  outcome cf (S n) (EId x) s = Fail (with_error (line cf (lit "could not find identifier: " ++ cstr x)) s).
Proof. intros U N L. rewrite ident_unknown by exact U. now apply fits_reported. Qed.
Lemma unknown_fatal n x s : unknown s x -> err s = None -> 256 <= length (line cf (lit "could not find identifier: " ++ cstr x)) ->
  outcome cf (S n) (EId x) s = Died.
Proof. intros U N L. rewrite ident_unknown by exact U. now apply long_fatal. Qed.

(** ** Imports *)
Lemma slashes_name l : l <> [] -> slashes l ++ lit ".fl" = file_name l.
Proof.
  destruct l as [|x l]; [contradiction|]. intros _. unfold file_name. f_equal. revert x. induction l as [|y l IH]; intro x.
  - cbn. now rewrite app_nil_r.
  - change (slashes (x :: y :: l)) with (x ++ lit "/" ++ slashes (y :: l)). rewrite IH. cbn [flat_map]. now rewrite <- !app_assoc.
Qed.
Lemma has_byte_slashes l : Forall (fun x => ~ In NUL x) l -> has_byte NUL (slashes l) = false.
Proof.
  induction 1 as [|x l N F IH]; [reflexivity|]. destruct l as [|y l].
  - cbn [slashes]. apply has_byte_not_In. exact N.
  - change (slashes (x :: y :: l)) with (x ++ lit "/" ++ slashes (y :: l)). apply has_byte_not_In in IH. apply has_byte_not_In. intro I.
    apply in_app_or in I. destruct I as [I|I]; [now apply N|]. apply in_app_or in I. destruct I as [I|I]; [|contradiction].
    cbn in I. destruct I as [I|[]]. discriminate.
Qed.

Lemma resolve_first p : forall before d after, Forall (fun d => cf_exists cf (in_dir d p) = false) before -> cf_exists cf (in_dir d p) = true ->
  resolve cf (before ++ d :: after) p = in_dir d p.
Proof.
  induction before as [|b before IH]; intros d after F E; cbn [app resolve].
  - unfold in_dir in *. now rewrite E.
  - inversion F as [|? ? Q F']; subst. unfold in_dir in Q at 1. rewrite Q. now apply IH.
Qed.
Lemma resolve_none p : forall dirs, Forall (fun d => cf_exists cf (in_dir d p) = false) dirs -> resolve cf dirs p = p.
Proof. induction 1 as [|d dirs E F IH]; cbn [resolve]; [reflexivity|]. unfold in_dir in E. now rewrite E. Qed.

Definition mk_member (m : kind * string * ptm) : cell := Cell (NOwn (lit (snd (fst m)))) 1 None (PFn (Fn (KPtm (snd m)) [] None None None)).
Fixpoint mk_members (a : nat) (l : list (kind * string * ptm)) : list (kind * bytes * addr) :=
  match l with [] => [] | m :: l => (fst (fst m), lit (snd (fst m)), a) :: mk_members (a + 1) l end.
Lemma members_new (s : st H) : new_members s = Ret (mk_members (length (cells s)) built_in) (set_cells (cells s ++ map mk_member built_in) s).
Proof.
  assert (Add : forall m (t : st H), add_member m t = Ret (fst (fst m), lit (snd (fst m)), length (cells t)) (set_cells (cells t ++ [mk_member m]) t)).
  { intros [[k x] p] t. cbn [add_member]. unfold mbind, alloc, put_cell, modify, ret. f_equal. destruct t as [c ? ? ? ? ? ? ? ? ? ? ? ?]. unfold set_cells. cbn [cells].
    f_equal. unfold mk_member. cbn [fst snd]. clear. induction c as [|y c IH]; cbn; [reflexivity|]. now rewrite IH. }
  assert (All : forall l (t : st H), mapM (@add_member H) l t = Ret (mk_members (length (cells t)) l) (set_cells (cells t ++ map mk_member l) t)).
  { induction l as [|m l IH]; intro t; cbn [mapM map mk_members].
    - rewrite app_nil_r. destruct t. reflexivity.
    - erewrite bind_step by apply Add. erewrite bind_step by apply IH. unfold ret, set_cells. cbn [cells]. rewrite app_length, <- app_assoc. reflexivity. }
  apply All.
Qed.

Lemma import_file_imports n path (s : st H) : imports cf n path s (import_file cf (interp cf n) path s).
Proof.
  unfold import_file. destruct (cf_file cf path) as [why|ss] eqn:F; [now apply imports_missing|]. cbv zeta.
  pose proof (members_new s) as E.
  set (s0 := set_engine None None (mk_members (length (cells s)) built_in) [] None (set_cells (cells s ++ map mk_member built_in) s)).
  assert (Q : mbind (@new_members H) (fun ms => mbind (modify (set_engine None None ms [] None)) (fun _ => iterM (r_stmt (interp cf n)) ss)) s = exec cf n ss s0).
  { erewrite bind_step by exact E. reflexivity. }
  rewrite Q. assert (En : entered s s0) by (unfold entered, s0; cbn; repeat split; rewrite <- ?Nat.add_assoc; reflexivity).
  destruct (exec cf n ss s0) as [[] s1|s1| |u|] eqn:X.
  - eapply imports_done; eauto.
  - destruct (err s1) as [msg|] eqn:Er.
    + apply (imports_failed cf n path s ss s0 s1 msg); auto. now left.
    + apply (imports_failed cf n path s ss s0 s1 (lit "no errors")); auto. now right.
  - eapply imports_stopped; eauto.
  - eapply imports_stopped; eauto.
  - eapply imports_stopped; eauto.
Qed.

Lemma import_resolved n rel path s : cur_rv s = None -> path <> [] -> Forall (fun x => ~ In NUL x) path ->
  r_stmt (interp cf (S n)) (SImport rel path) s = import_file cf (interp cf n) (if rel then file_name path else resolve cf (import_paths s) (file_name path)) s.
Proof.
  intros R N F. rewrite stmt_S. cbn [stmt_]. erewrite bind_step by (apply returning_no; assumption). cbv beta iota. unfold do_import. cbv zeta.
  rewrite has_byte_slashes by exact F. rewrite slashes_name by exact N. reflexivity.
Qed.

Lemma import_first n path s before d after : cur_rv s = None -> path <> [] -> Forall (fun x => ~ In NUL x) path -> import_paths s = before ++ d :: after ->
  Forall (fun d => cf_exists cf (in_dir d (file_name path)) = false) before -> cf_exists cf (in_dir d (file_name path)) = true ->
  imports cf n (in_dir d (file_name path)) s (r_stmt (interp cf (S n)) (SImport false path) s).
Proof.
  intros R N F E B D. rewrite import_resolved by assumption. cbv iota. rewrite E, resolve_first by assumption. apply import_file_imports.
Qed.
Lemma import_nowhere n path s : cur_rv s = None -> path <> [] -> Forall (fun x => ~ In NUL x) path ->
  Forall (fun d => cf_exists cf (in_dir d (file_name path)) = false) (import_paths s) ->
  imports cf n (file_name path) s (r_stmt (interp cf (S n)) (SImport false path) s).
Proof. intros R N F B. rewrite import_resolved by assumption. cbv iota. rewrite resolve_none by assumption. apply import_file_imports. Qed.
Lemma import_relative n path s : cur_rv s = None -> path <> [] -> Forall (fun x => ~ In NUL x) path ->
  imports cf n (file_name path) s (r_stmt (interp cf (S n)) (SImport true path) s).
Proof. intros R N F. rewrite import_resolved by assumption. apply import_file_imports. Qed.
End Imports.
