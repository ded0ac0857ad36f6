(** * What Bob prints: proofs (C74). *)

From Coq Require Import NArith Arith Ascii String Lia Bool List.
From Verif Require Import Base SpecLex Term SpecTerm.
Import ListNotations.
Local Open Scope nat_scope.

(** ** Lists *)
Lemma upd_same {A} (f : nat -> A) w a : upd f w a w = a.
Proof. unfold upd. now rewrite Nat.eqb_refl. Qed.
Lemma upd_other {A} (f : nat -> A) w a v : v <> w -> upd f w a v = f v.
Proof. intros D. unfold upd. apply Nat.eqb_neq in D. now rewrite D. Qed.
Lemma from_app c a b : from c (a ++ b) = from c a ++ from c b.
Proof. unfold from. rewrite filter_app, map_app, concat_app. reflexivity. Qed.
Lemma from_one c d x : from c [(d, x)] = if chan_eqb d c then x else [].
Proof. unfold from. cbn [filter fst map]. destruct (chan_eqb d c); cbn; rewrite ?app_nil_r; reflexivity. Qed.
Lemma part_app {A} w (a b : list (nat * A)) : part w (a ++ b) = part w a ++ part w b.
Proof. unfold part. rewrite filter_app, map_app. reflexivity. Qed.
Lemma part_one {A} w v (x : A) : part w [(v, x)] = if v =? w then [x] else [].
Proof. unfold part. cbn [filter fst map]. destruct (v =? w); reflexivity. Qed.
Lemma text_app e a b : text_on e (a ++ b) = text_on e a ++ text_on e b.
Proof. unfold text_on. rewrite map_app, filter_app, map_app, concat_app. reflexivity. Qed.
Lemma text_one e w d x : text_on e [(w, (d, x))] = if Bool.eqb d e then x else [].
Proof. unfold text_on. cbn [filter fst snd map]. destruct (Bool.eqb d e); cbn; rewrite ?app_nil_r; reflexivity. Qed.
Lemma prints_app a b : prints (a ++ b) = prints a ++ prints b.
Proof. unfold prints. apply flat_map_app. Qed.
Lemma lines_of_app t : fst (lines_of t) ++ snd (lines_of t) = t.
Proof.
  induction t as [|c t IH]; [reflexivity|]. cbn [lines_of]. destruct (lines_of t) as [a b]. cbn [fst snd] in *. destruct a as [|x a]; [|cbn [fst snd app] in *; congruence].
  destruct (Ascii.eqb c LF); cbn; now rewrite <- IH.
Qed.
Lemma lines_of_line t : lines_of (t ++ [LF]) = (t ++ [LF], []).
Proof. induction t as [|c t IH]; [reflexivity|]. cbn [app lines_of]. rewrite IH. destruct (t ++ [LF]) eqn:E; [destruct t; discriminate|]. reflexivity. Qed.

(** ** What has been written, and what not yet *)
Lemma step_text tty s l s' : tstep tty s l s' ->
  from Out (shown s') ++ pend s' = (from Out (shown s) ++ pend s) ++ text_on false l /\ from Err (shown s') = from Err (shown s) ++ text_on true l /\
  from Program (shown s') = from Program (shown s) /\
  (forall w, part w l ++ prints (todo s' w) = prints (todo s w)).
Proof.
  intros H. destruct H as [s w l r T O|s w l r T|s w x r T|s w x r a b T E|s a b T]; cbn [shown pend todo].
  - change (text_on false []) with (@nil ascii). change (text_on true []) with (@nil ascii). rewrite !app_nil_r. repeat split. intros v. destruct (Nat.eq_dec v w) as [->|D]; [rewrite upd_same, T; reflexivity|rewrite upd_other by exact D; reflexivity].
  - change (text_on false []) with (@nil ascii). change (text_on true []) with (@nil ascii). rewrite !app_nil_r. repeat split. intros v. destruct (Nat.eq_dec v w) as [->|D]; [rewrite upd_same, T; reflexivity|rewrite upd_other by exact D; reflexivity].
  - rewrite !from_app, !from_one, !text_one. cbn [chan_eqb Bool.eqb]. rewrite !app_nil_r. repeat split. intros v. rewrite part_one. destruct (Nat.eq_dec v w) as [->|D]; [rewrite upd_same, T, Nat.eqb_refl; reflexivity|]. rewrite upd_other by exact D. apply not_eq_sym, Nat.eqb_neq in D. rewrite D. reflexivity.
  - rewrite !from_app, !from_one, !text_one. cbn [chan_eqb Bool.eqb]. rewrite !app_nil_r. split; [|repeat split].
    + assert (Q : a ++ b = pend s ++ x) by (destruct tty; [rewrite <- (lines_of_app (pend s ++ x)); rewrite <- E; reflexivity|injection E as -> ->; reflexivity]). rewrite <- !app_assoc, Q. reflexivity.
    + intros v. rewrite part_one. destruct (Nat.eq_dec v w) as [->|D]; [rewrite upd_same, T, Nat.eqb_refl; reflexivity|]. rewrite upd_other by exact D. apply not_eq_sym, Nat.eqb_neq in D. rewrite D. reflexivity.
  - rewrite !from_app, !from_one. cbn [chan_eqb]. change (text_on false []) with (@nil ascii). change (text_on true []) with (@nil ascii). rewrite !app_nil_r, T, <- app_assoc. repeat split.
Qed.
Lemma runs_text tty s l s' : truns tty s l s' ->
  from Out (shown s') ++ pend s' = (from Out (shown s) ++ pend s) ++ text_on false l /\ from Err (shown s') = from Err (shown s) ++ text_on true l /\
  from Program (shown s') = from Program (shown s) /\
  (forall w, part w l ++ prints (todo s' w) = prints (todo s w)).
Proof.
  intros H. induction H as [s|s l s' m s'' H IH M].
  - change (text_on false []) with (@nil ascii). change (text_on true []) with (@nil ascii). rewrite !app_nil_r. repeat split.
  - destruct IH as (A & B & C & D). destruct (step_text _ _ _ _ M) as (A' & B' & C' & D'). rewrite !text_app, A', A, B', B, C', C, <- !app_assoc. repeat split.
    intros w. rewrite part_app, <- app_assoc, D', D. reflexivity.
Qed.

Theorem exit_prints_all tty acts own s' l : truns tty (TSt acts own [] []) l s' -> all_done s' ->
  merged (fun w => prints (acts w)) l /\ from Out (finish Exits s') = text_on false l /\ from Err (finish Exits s') = text_on true l.
Proof.
  intros R D. destruct (runs_text _ _ _ _ R) as (A & B & _ & P). cbn [shown pend todo] in *. split; [|split].
  - intros w. rewrite <- P, (D w). cbn. now rewrite app_nil_r.
  - cbn [finish]. rewrite from_app, from_one. exact A.
  - cbn [finish]. rewrite from_app, from_one, app_nil_r. exact B.
Qed.
Theorem errors_always_shown tty acts own s' l e : truns tty (TSt acts own [] []) l s' ->
  from Err (finish e s') = text_on true l /\ exists y, text_on false l = from Out (finish e s') ++ y.
Proof.
  intros R. destruct (runs_text _ _ _ _ R) as (A & B & _ & P). cbn [shown pend todo] in *. destruct e as [|x|]; cbn [finish]; rewrite ?from_app, ?from_one, ?app_nil_r; cbn [chan_eqb]; rewrite ?app_nil_r; (split; [exact B|]).
  - exists []. rewrite app_nil_r. symmetry. exact A.
  - exists (pend s'). symmetry. exact A.
  - exists (pend s'). symmetry. exact A.
Qed.

(** A terminal has whole lines at once. *)
Definition no_lf (x : bytes) : Prop := ~ In LF x.
Lemma lines_rest t : no_lf (snd (lines_of t)).
Proof.
  induction t as [|c t IH]; [intros []|]. cbn [lines_of]. destruct (lines_of t) as [a b]. cbn [snd] in *. destruct a as [|x a]; [|exact IH]. destruct (Ascii.eqb_spec c LF) as [E|E]; cbn [snd]; [exact IH|]. intros [Q|Q]; [congruence|exact (IH Q)].
Qed.
Lemma tty_pend s l s' : truns true s l s' -> no_lf (pend s) -> no_lf (pend s').
Proof.
  intros H N. induction H as [s|s l s' m s'' H IH M]; [exact N|]. specialize (IH N). destruct M as [s1 w k r T O|s1 w k r T|s1 w x r T|s1 w x r a b T E|s1 a b T]; cbn [pend]; try exact IH.
  - replace b with (snd (lines_of (pend s1 ++ x))) by (rewrite <- E; reflexivity). apply lines_rest.
  - intros I. apply IH. rewrite T. apply in_or_app. now right.
Qed.
Theorem terminal_shows_first acts own s' l x : truns true (TSt acts own [] []) l s' -> ends_line (text_on false l) ->
  exists before, finish (Becomes x) s' = before ++ [(Program, x)] /\ from Out before = text_on false l /\ from Err before = text_on true l.
Proof.
  intros R L. destruct (runs_text _ _ _ _ R) as (A & B & _ & P). cbn [shown pend] in *. pose proof (tty_pend _ _ _ R (fun f : In LF [] => f)) as N. exists (shown s'). split; [reflexivity|]. split; [|exact B].
  revert A N. generalize (pend s') as p. intros p A N. destruct p as [|c p _] using rev_ind; [rewrite app_nil_r in A; exact A|]. exfalso. cbn [app from map filter concat] in A.
  destruct L as [L|(y & L)]; rewrite L in A; [rewrite app_assoc in A; symmetry in A; exact (app_cons_not_nil _ _ _ A)|]. rewrite app_assoc in A. apply app_inj_tail in A as (_ & ->). apply N. apply in_or_app. right. now left.
Qed.

(** ** Headings and outputs *)
Section Blocks.
Variable l : nat.
Inductive piece := Sec (xs : list (bool * bytes)) | Loose (x : bytes).
Definition print (p : bool * bytes) : act := Print (fst p) (snd p).
Definition piece_acts (p : piece) : list act := match p with Sec xs => Lock l :: map print xs ++ [Unlock l] | Loose x => [Print true x] end.
Definition out_of (xs : list (bool * bytes)) : bytes := concat (map snd (filter (fun p => Bool.eqb (fst p) false) xs)).
Definition piece_block (p : piece) : list bytes := match p with Sec xs => [out_of xs] | Loose _ => [] end.
Lemma acts_head ps a r : flat_map piece_acts ps = a :: r ->
  (exists xs ps', ps = Sec xs :: ps' /\ a = Lock l /\ r = map print xs ++ Unlock l :: flat_map piece_acts ps') \/
  (exists x ps', ps = Loose x :: ps' /\ a = Print true x /\ r = flat_map piece_acts ps').
Proof.
  destruct ps as [|[xs|x] ps]; cbn [flat_map piece_acts app]; intros H; [discriminate| |].
  - left. injection H as <- <-. exists xs, ps. rewrite <- app_assoc. repeat split.
  - right. injection H as <- <-. exists x, ps. repeat split.
Qed.
Lemma out_of_app a b : out_of (a ++ b) = out_of a ++ out_of b.
Proof. unfold out_of. rewrite filter_app, map_app, concat_app. reflexivity. Qed.

Variable ps : nat -> list piece.
Definition blocks_of (l : list piece) : list bytes := flat_map piece_block l.
Definition idle (s : tst) (tr : list (nat * (bool * bytes))) : Prop :=
  exists bs rest, owner s l = None /\ text_on false tr = concat (map snd bs) /\
    forall w, todo s w = flat_map piece_acts (rest w) /\ part w bs ++ blocks_of (rest w) = blocks_of (ps w).
Definition busy (s : tst) (tr : list (nat * (bool * bytes))) : Prop :=
  exists bs rest w0 old new, owner s l = Some w0 /\ text_on false tr = concat (map snd bs) ++ out_of old /\
    todo s w0 = map print new ++ Unlock l :: flat_map piece_acts (rest w0) /\ part w0 bs ++ out_of (old ++ new) :: blocks_of (rest w0) = blocks_of (ps w0) /\
    forall w, w <> w0 -> todo s w = flat_map piece_acts (rest w) /\ part w bs ++ blocks_of (rest w) = blocks_of (ps w).

Lemma step_blocks tty s tr m s' : tstep tty s m s' -> idle s tr \/ busy s tr -> idle s' (tr ++ m) \/ busy s' (tr ++ m).
Proof.
  intros M [(bs & rest & O & T & P)|(bs & rest & w0 & old & new & O & T & T0 & B0 & P)].
  - destruct M as [s w k r W K|s w k r W|s w x r W|s w x r a b W E|s a b W]; cbn [todo owner].
    + destruct (P w) as (Pw & Bw). rewrite Pw in W. destruct (acts_head _ _ _ W) as [(xs & ps' & R & Q & ->)|(x & ps' & R & Q & _)]; [|discriminate]. injection Q as ->. right.
      exists bs, (upd rest w ps'), w, [], xs. cbn [todo owner]. rewrite !upd_same, app_nil_r. change (out_of []) with (@nil ascii). rewrite app_nil_r. repeat split; try assumption.
      * rewrite R in Bw. exact Bw.
      * rewrite upd_other by assumption. rewrite (upd_other rest) by assumption. apply P.
      * rewrite upd_other by assumption. apply P.
    + destruct (P w) as (Pw & _). rewrite Pw in W. destruct (acts_head _ _ _ W) as [(xs & ps' & R & Q & _)|(x & ps' & R & Q & _)]; discriminate.
    + destruct (P w) as (Pw & Bw). rewrite Pw in W. destruct (acts_head _ _ _ W) as [(xs & ps' & R & Q & _)|(y & ps' & R & Q & ->)]; [discriminate|]. injection Q as ->. left.
      exists bs, (upd rest w ps'). cbn [todo owner]. rewrite text_app, text_one, app_nil_r. repeat split; try assumption; destruct (Nat.eq_dec w0 w) as [->|D]; rewrite ?upd_same, ?upd_other by assumption; try apply P; [reflexivity|]. rewrite R in Bw. exact Bw.
    + destruct (P w) as (Pw & _). rewrite Pw in W. destruct (acts_head _ _ _ W) as [(xs & ps' & R & Q & _)|(y & ps' & R & Q & _)]; discriminate.
    + left. exists bs, rest. cbn [todo owner]. rewrite app_nil_r. repeat split; try assumption; apply P.
  - destruct M as [s w k r W K|s w k r W|s w x r W|s w x r a b W E|s a b W]; cbn [todo owner].
    + exfalso. destruct (Nat.eq_dec w w0) as [->|D].
      * rewrite T0 in W. destruct new as [|[e x] new]; discriminate.
      * destruct (P w D) as (Pw & _). rewrite Pw in W. destruct (acts_head _ _ _ W) as [(xs & ps' & R & Q & _)|(y & ps' & R & Q & _)]; [|discriminate]. injection Q as ->. congruence.
    + destruct (Nat.eq_dec w w0) as [->|D].
      * rewrite T0 in W. destruct new as [|[e x] new]; [|discriminate]. injection W as <- <-. left. exists (bs ++ [(w0, out_of old)]), rest. cbn [todo owner]. rewrite upd_same, app_nil_r, map_app, concat_app. cbn [map concat snd]. rewrite app_nil_r in *. repeat split; try assumption.
        -- destruct (Nat.eq_dec w w0) as [->|D]; [apply upd_same|rewrite upd_other by exact D; apply P, D].
        -- rewrite part_app, part_one. destruct (Nat.eq_dec w w0) as [->|D]; [rewrite Nat.eqb_refl, <- app_assoc; exact B0|]. pose proof D as D'. apply not_eq_sym, Nat.eqb_neq in D. rewrite D, app_nil_r. apply P, D'.
      * exfalso. destruct (P w D) as (Pw & _). rewrite Pw in W. destruct (acts_head _ _ _ W) as [(xs & ps' & R & Q & _)|(y & ps' & R & Q & _)]; discriminate.
    + right. destruct (Nat.eq_dec w w0) as [->|D].
      * rewrite T0 in W. destruct new as [|[e y] new]; [discriminate|]. cbn [map print fst snd app] in W. injection W as -> -> <-. exists bs, rest, w0, (old ++ [(true, x)]), new. cbn [todo owner]. rewrite upd_same, text_app, text_one, !out_of_app. change (out_of [(true, x)]) with (@nil ascii). rewrite !app_nil_r. rewrite out_of_app in B0. repeat split; try assumption; rewrite ?upd_other by assumption; apply P; assumption.
      * destruct (P w D) as (Pw & Bw). rewrite Pw in W. destruct (acts_head _ _ _ W) as [(xs & ps' & R & Q & _)|(y & ps' & R & Q & ->)]; [discriminate|]. injection Q as ->.
        exists bs, (upd rest w ps'), w0, old, new. cbn [todo owner]. rewrite text_app, text_one, app_nil_r, (upd_other _ _ _ w0), (upd_other rest _ _ w0) by congruence. repeat split; try assumption; destruct (Nat.eq_dec w1 w) as [->|D']; rewrite ?upd_same, ?upd_other by assumption; try (apply P; assumption); [reflexivity|]. rewrite R in Bw. exact Bw.
    + right. destruct (Nat.eq_dec w w0) as [->|D].
      * rewrite T0 in W. destruct new as [|[e y] new]; [discriminate|]. cbn [map print fst snd app] in W. injection W as -> -> <-. exists bs, rest, w0, (old ++ [(false, x)]), new. cbn [todo owner]. rewrite upd_same, text_app, text_one, T, !out_of_app. change (out_of [(false, x)]) with (x ++ []). rewrite out_of_app in B0. change (out_of ((false, x) :: new)) with (x ++ out_of new) in B0. cbn [Bool.eqb]. rewrite !app_nil_r, <- !app_assoc. repeat split; try assumption; rewrite ?upd_other by assumption; apply P; assumption.
      * exfalso. destruct (P w D) as (Pw & _). rewrite Pw in W. destruct (acts_head _ _ _ W) as [(xs & ps' & R & Q & _)|(y & ps' & R & Q & _)]; discriminate.
    + right. exists bs, rest, w0, old, new. cbn [todo owner]. rewrite app_nil_r. repeat split; try assumption; apply P; assumption.
Qed.
Lemma runs_blocks tty s tr s' : truns tty s tr s' -> idle s [] -> idle s' tr \/ busy s' tr.
Proof. intros H I. induction H as [s|s tr s' m s'' H IH M]; [now left|]. apply (step_blocks tty s' tr m s'' M), IH, I. Qed.
Lemma acts_nil rest : flat_map piece_acts rest = [] -> rest = [].
Proof. destruct rest as [|[xs|x] rest]; [reflexivity|discriminate|discriminate]. Qed.
Lemma done_blocks tty s tr s' : truns tty s tr s' -> (forall w, todo s w = flat_map piece_acts (ps w)) -> owner s l = None -> all_done s' ->
  exists bs, merged (fun w => blocks_of (ps w)) bs /\ text_on false tr = concat (map snd bs).
Proof.
  intros R S O D. destruct (runs_blocks _ _ _ _ R) as [(bs & rest & _ & T & P)|(bs & rest & w0 & old & new & _ & _ & T0 & _)].
  - exists [], ps. repeat split; [exact O|apply S].
  - exists bs. split; [|exact T]. intros w. destruct (P w) as (Pw & Bw). rewrite (D w) in Pw. symmetry in Pw. apply acts_nil in Pw. rewrite Pw in Bw. cbn in Bw. now rewrite app_nil_r in Bw.
  - exfalso. rewrite (D w0) in T0. destruct new as [|[e x] new]; discriminate.
Qed.
End Blocks.

Definition pieces (colour : bool) (t : told) : list piece :=
  [Sec [(false, begun colour t)]] ++ map (fun m => Loose (vlog colour (fst m) (snd m))) (t_before t) ++
  [Sec [(t_failed t, vlog colour (if t_failed t then Error else Success) (heading (t_failed t) (t_src t) (t_out t))); (false, cstr (t_out t))]] ++
  map (fun m => Loose (vlog colour (fst m) (snd m))) (t_after t).
Lemma loose_acts colour l ms : Forall (fun m => to_err (fst m) = true) ms ->
  map (fun m => say colour (fst m) (snd m)) ms = flat_map (piece_acts l) (map (fun m => Loose (vlog colour (fst m) (snd m))) ms).
Proof. intros H. induction H as [|m ms Hm _ IH]; [reflexivity|]. cbn [map flat_map piece_acts app]. unfold say at 1. rewrite Hm, IH. reflexivity. Qed.
Lemma loose_blocks colour ms : blocks_of (map (fun m : level * bytes => Loose (vlog colour (fst m) (snd m))) ms) = [].
Proof. induction ms as [|m ms IH]; [reflexivity|exact IH]. Qed.
Lemma compile_pieces colour l t : no_notes t -> compile_acts colour l t = flat_map (piece_acts l) (pieces colour t).
Proof.
  intros N. apply Forall_app in N as (B & A). unfold compile_acts, pieces. rewrite !flat_map_app, (loose_acts colour l _ B), (loose_acts colour l _ A). unfold report, say. destruct (t_failed t); reflexivity.
Qed.
Lemma compile_blocks colour t : blocks_of (pieces colour t) = [begun colour t; reported colour t].
Proof.
  unfold pieces. unfold blocks_of. rewrite !flat_map_app. fold (blocks_of (map (fun m : level * bytes => Loose (vlog colour (fst m) (snd m))) (t_before t))). fold (blocks_of (map (fun m : level * bytes => Loose (vlog colour (fst m) (snd m))) (t_after t))). rewrite !loose_blocks.
  unfold reported. destruct (t_failed t); cbn -[vlog heading cstr begun]; unfold out_of; cbn -[vlog heading cstr begun]; rewrite ?app_nil_r; reflexivity.
Qed.
Theorem outputs_follow_headings tty colour l work s' tr :
  (forall w, Forall (fun t => fst t = l /\ no_notes (snd t)) (work w)) -> truns tty (TSt (fun w => works colour (work w)) (fun _ => None) [] []) tr s' -> all_done s' ->
  exists bs, merged (fun w => blocks colour (map snd (work w))) bs /\ from Out (finish Exits s') = concat (map snd bs).
Proof.
  intros N R D. destruct (exit_prints_all _ _ _ _ _ R D) as (_ & E & _).
  assert (Q : forall w, works colour (work w) = flat_map (piece_acts l) (flat_map (fun t => pieces colour (snd t)) (work w))).
  { intros w. generalize (N w). generalize (work w). intros ts H. unfold works. induction H as [|t ts (L & Ht) _ IH]; [reflexivity|]. cbn [flat_map]. rewrite flat_map_app, L, (compile_pieces colour l _ Ht), IH. reflexivity. }
  assert (B : forall w, blocks_of (flat_map (fun t => pieces colour (snd t)) (work w)) = blocks colour (map snd (work w))).
  { intros w. generalize (work w). intros ts. unfold blocks_of, blocks. induction ts as [|t ts IH]; [reflexivity|]. cbn [flat_map map]. rewrite flat_map_app, IH. fold (blocks_of (pieces colour (snd t))). rewrite compile_blocks. reflexivity. }
  destruct (done_blocks l (fun w => flat_map (fun t => pieces colour (snd t)) (work w)) _ _ _ _ R Q eq_refl D) as (bs & M & T). exists bs. split; [|now rewrite E, T]. intros w. rewrite (M w). apply B.
Qed.

(** *** Runs by schedule *)
Definition step1 (s : tst) (w : nat) : option (list (nat * (bool * bytes)) * tst) :=
  match todo s w with
  | [] => None
  | Lock l :: r => match owner s l with None => Some ([], TSt (upd (todo s) w r) (upd (owner s) l (Some w)) (pend s) (shown s)) | Some _ => None end
  | Unlock l :: r => Some ([], TSt (upd (todo s) w r) (upd (owner s) l None) (pend s) (shown s))
  | Print true x :: r => Some ([(w, (true, x))], TSt (upd (todo s) w r) (owner s) (pend s) (shown s ++ [(Err, x)]))
  | Print false x :: r => Some ([(w, (false, x))], TSt (upd (todo s) w r) (owner s) (pend s ++ x) (shown s ++ [(Out, [])]))
  end.
Fixpoint steps (s : tst) (tr : list (nat * (bool * bytes))) (ws : list nat) : option (list (nat * (bool * bytes)) * tst) :=
  match ws with
  | [] => Some (tr, s)
  | w :: ws' => match step1 s w with Some (m, s') => steps s' (tr ++ m) ws' | None => None end
  end.
Lemma step1_steps s w m s' : step1 s w = Some (m, s') -> tstep false s m s'.
Proof.
  unfold step1. destruct (todo s w) as [|[l|l|[|] x] r] eqn:T; [discriminate| | | |].
  - destruct (owner s l) eqn:O; [discriminate|]. intros H. injection H as <- <-. apply ts_lock; assumption.
  - intros H. injection H as <- <-. apply ts_unlock; assumption.
  - intros H. injection H as <- <-. apply ts_err; assumption.
  - intros H. injection H as <- <-. apply (ts_out false s w x r [] _ T). reflexivity.
Qed.
Lemma steps_runs ws : forall s0 s tr tr' s', truns false s0 tr s -> steps s tr ws = Some (tr', s') -> truns false s0 tr' s'.
Proof.
  induction ws as [|w ws IH]; intros s0 s tr tr' s' R H; cbn [steps] in H; [injection H as <- <-; exact R|]. destruct (step1 s w) as [[m s1]|] eqn:E; [|discriminate]. apply (IH s0 s1 (tr ++ m) tr' s'); [|exact H]. apply (truns_more _ _ _ _ _ _ R). apply (step1_steps _ _ _ _ E).
Qed.

(** *** Two compile() calls have two locks *)
Definition ta : told := Told (lit "a.c") [] false (lit "w" ++ [LF]) [].
Definition tb : told := Told (lit "b.c") [] false (lit "x" ++ [LF]) [].
Definition two_work (w : nat) : list (nat * told) := match w with 0 => [(0, ta)] | 1 => [(1, tb)] | _ => [] end.
Definition two_start : tst := TSt (fun w => works false (two_work w)) (fun _ => None) [] [].
Definition two_end : list (nat * (bool * bytes)) * tst := match steps two_start [] [0;0;0;1;1;1;0;0;1;1;0;1;0;1] with Some r => r | None => ([], two_start) end.
Lemma two_runs : truns false two_start (fst two_end) (snd two_end).
Proof. apply (steps_runs [0;0;0;1;1;1;0;0;1;1;0;1;0;1] two_start two_start []); [constructor|]. unfold two_end. destruct (steps _ _ _) as [[tr s]|] eqn:E; [reflexivity|]. exfalso. revert E. vm_compute. discriminate. Qed.
Lemma two_done : all_done (snd two_end).
Proof. intros [|[|w]]; reflexivity. Qed.
Definition two_text : bytes := begun false ta ++ begun false tb ++ vlog false Success (heading false (lit "a.c") (t_out ta)) ++ vlog false Success (heading false (lit "b.c") (t_out tb)) ++ t_out ta ++ t_out tb.
Lemma two_shows : from Out (finish Exits (snd two_end)) = two_text.
Proof. vm_compute. reflexivity. Qed.

Fixpoint shuffles {A} (n : nat) (a b : list A) : list (list A) :=
  match n with
  | 0 => [[]]
  | S n' => (match a with x :: a' => map (cons x) (shuffles n' a' b) | [] => [] end) ++ (match b with x :: b' => map (cons x) (shuffles n' a b') | [] => [] end)
  end.
Lemma shuffled {A} (bs : list (nat * A)) : forall a b, (forall w, part w bs = match w with 0 => a | 1 => b | _ => [] end) -> In (map snd bs) (shuffles (length bs) a b).
Proof.
  induction bs as [|[v x] bs IH]; intros a b H; [now left|]. cbn [length map snd shuffles]. change ((v, x) :: bs) with ([(v, x)] ++ bs) in H.
  assert (V : v = 0 \/ v = 1). { specialize (H v). rewrite part_app, part_one, Nat.eqb_refl in H. destruct v as [|[|v]]; [now left|now right|discriminate]. }
  apply in_or_app. destruct V as [-> | ->].
  - left. pose proof (H 0) as H0. rewrite part_app, part_one in H0. cbn in H0. subst a. apply in_map, IH. intros [|[|w]]; [reflexivity| |].
    + specialize (H 1). rewrite part_app, part_one in H. exact H.
    + specialize (H (S (S w))). rewrite part_app, part_one in H. exact H.
  - right. pose proof (H 1) as H1. rewrite part_app, part_one in H1. cbn in H1. subst b. apply in_map, IH. intros [|[|w]]; [|reflexivity|].
    + specialize (H 0). rewrite part_app, part_one in H. exact H.
    + specialize (H (S (S w))). rewrite part_app, part_one in H. exact H.
Qed.
Lemma part_length {A} (bs : list (nat * A)) : forall a b, (forall w, part w bs = match w with 0 => a | 1 => b | _ => [] end) -> length bs = length a + length b.
Proof.
  induction bs as [|[v x] bs IH]; intros a b H.
  - rewrite <- (H 0), <- (H 1). reflexivity.
  - change ((v, x) :: bs) with ([(v, x)] ++ bs) in H. destruct v as [|[|v]].
    + destruct a as [|y a]; [specialize (H 0); rewrite part_app, part_one in H; discriminate|]. cbn [length]. rewrite (IH a b); [reflexivity|]. intros [|[|w]]; [specialize (H 0)|specialize (H 1)|specialize (H (S (S w)))]; rewrite part_app, part_one in H; [injection H as _ H|..]; exact H.
    + destruct b as [|y b]; [specialize (H 1); rewrite part_app, part_one in H; discriminate|]. cbn [length]. rewrite (IH a b); [lia|]. intros [|[|w]]; [specialize (H 0)|specialize (H 1)|specialize (H (S (S w)))]; rewrite part_app, part_one in H; [|injection H as _ H|]; exact H.
    + specialize (H (S (S v))). rewrite part_app, part_one, Nat.eqb_refl in H. discriminate.
Qed.
Lemma two_not_merged : ~ exists bs, merged (fun w => blocks false (map snd (two_work w))) bs /\ two_text = concat (map snd bs).
Proof.
  intros (bs & M & T). assert (H : forall w, part w bs = match w with 0 => blocks false [ta] | 1 => blocks false [tb] | _ => [] end) by (intros w; rewrite (M w); destruct w as [|[|w]]; reflexivity).
  pose proof (shuffled bs _ _ H) as I. rewrite (part_length bs _ _ H) in I.
  assert (C : forallb (fun xs => negb (bytes_eqb (concat xs) two_text)) (shuffles (length (blocks false [ta]) + length (blocks false [tb])) (blocks false [ta]) (blocks false [tb])) = true) by (vm_compute; reflexivity).
  rewrite forallb_forall in C. specialize (C _ I). rewrite <- T in C. apply negb_true_iff in C. assert (bytes_eqb two_text two_text = true) by (vm_compute; reflexivity). congruence.
Qed.

(** ** Becoming a program without a terminal *)
Definition one_start : tst := TSt (fun w => match w with 0 => works false [(0, ta)] | _ => [] end) (fun _ => None) [] [].
Definition one_end : list (nat * (bool * bytes)) * tst := match steps one_start [] [0;0;0;0;0;0;0] with Some r => r | None => ([], one_start) end.
Lemma one_runs : truns false one_start (fst one_end) (snd one_end).
Proof. apply (steps_runs [0;0;0;0;0;0;0] one_start one_start []); [constructor|]. unfold one_end. destruct (steps _ _ _) as [[tr s]|] eqn:E; [reflexivity|]. exfalso. revert E. vm_compute. discriminate. Qed.
Lemma one_done : all_done (snd one_end).
Proof. intros [|w]; reflexivity. Qed.
Lemma one_lost x : from Out (finish (Becomes x) (snd one_end)) = [].
Proof. vm_compute. reflexivity. Qed.
Lemma one_said : text_on false (fst one_end) = begun false ta ++ reported false ta.
Proof. vm_compute. reflexivity. Qed.

(** ** Colours *)
Lemma begins_true x t : begins x t = true <-> exists b, t = x ++ b.
Proof.
  revert t. induction x as [|a x IH]; intros t; [split; [intros _; now exists t|reflexivity]|]. destruct t as [|c t]; cbn [begins]; [split; [discriminate|intros (b & H); discriminate]|].
  rewrite andb_true_iff, Ascii.eqb_eq, IH. split; [intros (-> & b & ->); now exists b|intros (b & H); injection H as -> ->; split; [reflexivity|now exists b]].
Qed.
Lemma strstr_true t x : strstr t x = true <-> exists a b, t = a ++ x ++ b.
Proof.
  induction t as [|c t IH]; cbn [strstr]; rewrite orb_true_iff, begins_true.
  - split; [intros [(b & H)|H]; [now exists [], b|discriminate]|]. intros (a & b & H). destruct a; [left; now exists b|discriminate].
  - rewrite IH. split.
    + intros [(b & H)|(a & b & H)]; [now exists [], b|exists (c :: a), b; now rewrite H].
    + intros (a & b & H). destruct a as [|d a]; [left; now exists b|right]. injection H as _ H. now exists a, b.
Qed.
Theorem colours e : supports_colour e = true <->
  te_force e = true \/
  te_out_tty e = true /\ te_err_tty e = true /\ ((exists c x, te_colorterm e = Some (c :: x)) \/ exists a b, te_term e = Some (a ++ lit "color" ++ b)).
Proof.
  unfold supports_colour. destruct (te_force e); [intuition|]. destruct (te_out_tty e), (te_err_tty e); cbn [negb orb]; try (split; [discriminate|intros [H|(A & B & _)]; discriminate]).
  assert (TM : (match te_term e with None => false | Some t => strstr t (lit "color") end) = true <-> exists a b, te_term e = Some (a ++ lit "color" ++ b)).
  { destruct (te_term e) as [t|]; [|split; [discriminate|intros (a & b & H); discriminate]]. rewrite strstr_true. split; intros (a & b & H); exists a, b; [now rewrite H|congruence]. }
  destruct (te_colorterm e) as [[|c x]|].
  - rewrite TM. split; [intros H; right; repeat split; now right|]. intros [H|(_ & _ & [(c & x & H)|H])]; [discriminate|discriminate|exact H].
  - split; [intros _; right; repeat split; left; now exists c, x|reflexivity].
  - rewrite TM. split; [intros H; right; repeat split; now right|]. intros [H|(_ & _ & [(c & x & H)|H])]; [discriminate|discriminate|exact H].
Qed.
Lemma split_esc u : forall v a b, ~ In ESC u -> u ++ v = a ++ ESC :: b -> exists a', a = u ++ a' /\ v = a' ++ ESC :: b.
Proof.
  induction u as [|c u IH]; intros v a b N H; [now exists a|]. destruct a as [|d a]; cbn [app] in H; [injection H as -> _; destruct N; now left|]. injection H as -> H. destruct (IH v a b) as (a' & -> & E); [intros I; apply N; now right|exact H|]. now exists a'.
Qed.
Lemma one_reset u v : ~ In ESC u -> ~ In ESC v -> only_resets (u ++ CLEAR ++ v).
Proof.
  intros U V a b H. destruct (split_esc _ _ _ _ U H) as (a' & -> & E). destruct a' as [|c a']; cbn [app] in E.
  - injection E as <-. exists v. reflexivity.
  - exfalso. injection E as _ E. change (lit "[0m" ++ v = a' ++ ESC :: b) in E. apply split_esc in E; [|cbv; intuition discriminate]. destruct E as (a'' & -> & ->). apply V, in_or_app. right. now left.
Qed.
Theorem plain_lines t : ~ In ESC (t_src t) -> only_resets (begun false t) /\ forall f : bool, only_resets (vlog false (if f then Error else Success) (heading f (t_src t) (t_out t))).
Proof.
  intros N. split; [|intros f]; unfold begun, vlog, heading; rewrite <- ?app_assoc; apply one_reset; try exact N.
  - cbv. intuition discriminate.
  - rewrite !in_app_iff. intros I. destruct f, (cstr (t_out t)); cbv in I; intuition discriminate.
Qed.
Lemma ta_plain : ~ In ESC (t_src ta).
Proof. cbv. intuition discriminate. Qed.
Lemma ta_escapes : In ESC (begun (supports_colour (TEnv false false false None None)) ta).
Proof. cbv. tauto. Qed.
Lemma two_quiet w : Forall (fun t => no_notes (snd t)) (two_work w).
Proof. destruct w as [|[|w]]; repeat constructor. Qed.
