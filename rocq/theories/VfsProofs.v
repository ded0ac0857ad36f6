(** * Places, paths and walks. *)

From Coq Require Import ZArith Ascii String Lia Bool List.
From Verif Require Import Base Deps FileSys FrugalProofs Vfs Install SpecInstall.
Import ListNotations.

(** ** Places *)

Lemma loc_eqb_eq a : forall b, loc_eqb a b = true <-> a = b.
Proof.
  induction a as [|x a IH]; intros [|y b]; cbn; try (split; congruence).
  rewrite andb_true_iff, bytes_eqb_eq, IH. split; [intros [-> ->]; auto|intros H; inversion H; auto].
Qed.
Lemma loc_eqb_refl a : loc_eqb a a = true.
Proof. now apply loc_eqb_eq. Qed.
Lemma loc_eqb_neq a b : loc_eqb a b = false <-> a <> b.
Proof. rewrite <- loc_eqb_eq. destruct (loc_eqb a b); split; congruence. Qed.

Lemma app_own {A} (x d : list A) : d = x ++ d -> x = [].
Proof. intros H. apply (f_equal (@length A)) in H. rewrite app_length in H. destruct x; auto. cbn in H. lia. Qed.

Lemma rel_some d q x : rel d q = Some x <-> q = x ++ d.
Proof.
  revert x. induction q as [|c q IH]; intros x; cbn.
  - destruct (loc_eqb d []) eqn:E.
    + apply loc_eqb_eq in E. subst. split; [intros H; injection H as <-; auto|]. rewrite app_nil_r. intros ->. auto.
    + apply loc_eqb_neq in E. split; [discriminate|]. intros H. symmetry in H. apply app_eq_nil in H. tauto.
  - destruct (loc_eqb d (c :: q)) eqn:E.
    + apply loc_eqb_eq in E. rewrite E. split; [intros H; injection H as <-; auto|]. intros H. apply app_own in H. now subst.
    + apply loc_eqb_neq in E. destruct (rel d q) as [y|] eqn:R.
      * cbn. split.
        { intros H. injection H as <-. cbn. f_equal. now apply IH. }
        { intros H. destruct x as [|c' x]; cbn in H; [congruence|]. injection H as -> H. f_equal. f_equal. apply IH in H. congruence. }
      * cbn. split; [discriminate|]. intros H. destruct x as [|c' x]; cbn in H; [congruence|]. injection H as -> H. apply IH in H. congruence.
Qed.
Lemma rel_none d q : rel d q = None <-> ~ below d q.
Proof.
  split.
  - intros H [x B]. apply rel_some in B. congruence.
  - intros H. destruct (rel d q) as [x|] eqn:R; auto. apply rel_some in R. destruct H. now exists x.
Qed.
Lemma belowb_iff d q : belowb d q = true <-> below d q.
Proof.
  unfold belowb. destruct (rel d q) as [x|] eqn:R; split; try congruence; intros H.
  - apply rel_some in R. now exists x.
  - apply rel_none in R. contradiction.
Qed.
Lemma belowb_false d q : belowb d q = false <-> ~ below d q.
Proof. rewrite <- belowb_iff. destruct (belowb d q); split; congruence. Qed.
Lemma below_dec d q : below d q \/ ~ below d q.
Proof. rewrite <- belowb_iff. destruct (belowb d q); [left|right]; congruence. Qed.

Lemma below_refl d : below d d.
Proof. now exists []. Qed.
Lemma below_trans a b c : below a b -> below b c -> below a c.
Proof. intros [x ->] [y ->]. exists (y ++ x). now rewrite app_assoc. Qed.
Lemma below_cons a c q : below a q -> below a (c :: q).
Proof. intros [x ->]. now exists (c :: x). Qed.
Lemma below_antisym a b : below a b -> below b a -> a = b.
Proof.
  intros [x ->] [y H]. rewrite app_assoc in H. apply app_own in H. apply app_eq_nil in H. destruct H as [_ ->]. auto.
Qed.
Lemma below_length a b : below a b -> length a <= length b.
Proof. intros [x ->]. rewrite app_length. lia. Qed.
Lemma below_tl a q : below a q -> q <> a -> below a (tl q).
Proof. intros [[|c x] ->] N; [contradiction|]. now exists x. Qed.
Lemma tl_below q : below (tl q) q.
Proof. destruct q as [|c q]; [apply below_refl|]. now exists [c]. Qed.
Lemma below_two a b q : below a q -> below b q -> below a b \/ below b a.
Proof.
  intros [x ->] [y E]. revert y E. induction x as [|c x IH]; intros y E; cbn in E.
  - right. now exists y.
  - destruct y as [|c' y]; cbn in E.
    + left. exists (c :: x). auto.
    + injection E as _ E. eauto.
Qed.
Lemma below_app a x : below a (x ++ a).
Proof. now exists x. Qed.

(** ** Walks *)

Lemma hide_out ds f q : (forall d, In d ds -> ~ below d q) -> hide ds f q = f q.
Proof.
  intros H. unfold hide. destruct (existsb (fun d => belowb d q) ds) eqn:E; auto.
  apply existsb_exists in E as (d & I & B). apply belowb_iff in B. destruct (H d I B).
Qed.
Lemma hide_some ds f q n : hide ds f q = Some n -> f q = Some n /\ forall d, In d ds -> ~ below d q.
Proof.
  unfold hide. destruct (existsb (fun d => belowb d q) ds) eqn:E; [discriminate|]. intros H. split; auto.
  intros d I B. apply belowb_iff in B. assert (X : existsb (fun d => belowb d q) ds = true); [apply existsb_exists; eauto|congruence].
Qed.

Definition same_kind (n n' : node) : Prop := n = n' \/ (exists t t', n = VDir t /\ n' = VDir t').

(** One step of a walk. *)
Lemma walk_nil f keep n cur : walk f keep n cur [] = match f cur with Some _ => WFound cur | None => WNoEnt end.
Proof. destruct n; cbn; destruct (f cur) as [[| |]|]; reflexivity. Qed.

Definition after_link (cur : loc) (tgt : bytes) : loc :=
  match tgt with x :: _ => if byte_eqb x SLASH then [] else cur | [] => cur end.

Lemma walk_cons f keep n cur c rest : walk f keep n cur (c :: rest) =
  match f cur with
  | Some (VDir _) =>
    if is_nil c || bytes_eqb c dot then walk f keep n cur rest
    else if bytes_eqb c dotdot then walk f keep n (tl cur) rest
    else match f (c :: cur) with
         | None => if forallb is_nil rest then WMissing (c :: cur) else WNoEnt
         | Some (VLink tgt) =>
           if keep && is_nil rest then WFound (c :: cur)
           else match n with
                | 0 => WErr
                | S k => walk f keep k (after_link cur tgt) (strsep SLASH tgt ++ rest)
                end
         | Some _ => walk f keep n (c :: cur) rest
         end
  | Some _ => WErr
  | None => WNoEnt
  end.
Proof. destruct n; reflexivity. Qed.

(** What was found stays found when nodes are added. *)
Lemma walk_mono f f' keep : (forall q n, f q = Some n -> exists n', f' q = Some n' /\ same_kind n n') ->
  forall n cur cs l, walk f keep n cur cs = WFound l -> walk f' keep n cur cs = WFound l.
Proof.
  intros M. induction n as [|n IHn]; intros cur cs; revert cur; induction cs as [|c cs IH]; intros cur l;
    rewrite ?walk_nil, ?walk_cons.
  1,3: destruct (f cur) as [m|] eqn:E; [|discriminate]; intros H; destruct (M _ _ E) as (m' & -> & _); exact H.
  all: destruct (f cur) as [[| |]|] eqn:E; try discriminate; destruct (M _ _ E) as (m' & E' & K);
    destruct K as [<-|(t1 & t2 & _ & ->)]; rewrite E';
    (destruct (is_nil c || bytes_eqb c dot); [apply IH|]); (destruct (bytes_eqb c dotdot); [apply IH|]);
    (destruct (f (c :: cur)) as [m|] eqn:E2; [|destruct (forallb is_nil cs); discriminate]);
    destruct (M _ _ E2) as (m2 & E2' & K2); destruct K2 as [<-|(t3 & t4 & -> & ->)]; rewrite E2'; try apply IH;
    destruct m as [| |tgt]; try apply IH; (destruct (keep && is_nil cs); [auto|]); try discriminate; apply IHn.
Qed.

Lemma lookup_mono f f' keep cwd p l : (forall q n, f q = Some n -> exists n', f' q = Some n' /\ same_kind n n') ->
  lookup cwd f keep p = WFound l -> lookup cwd f' keep p = WFound l.
Proof. intros M. unfold lookup. destruct p; [discriminate|]. apply walk_mono, M. Qed.

Lemma walk_found f keep n : forall cur cs l, walk f keep n cur cs = WFound l -> exists m, f l = Some m.
Proof.
  induction n as [|n IHn]; intros cur cs; revert cur; induction cs as [|c cs IH]; intros cur l; rewrite ?walk_nil, ?walk_cons.
  1,3: destruct (f cur) as [m|] eqn:E; [|discriminate]; intros H; injection H as <-; eauto.
  all: destruct (f cur) as [[| |]|] eqn:E; try discriminate;
    (destruct (is_nil c || bytes_eqb c dot); [apply IH|]); (destruct (bytes_eqb c dotdot); [apply IH|]);
    (destruct (f (c :: cur)) as [m|] eqn:E2; [|destruct (forallb is_nil cs); discriminate]);
    destruct m as [| |tgt]; try apply IH;
    (destruct (keep && is_nil cs); [intros H; injection H as <-; eauto|]); try discriminate; apply IHn.
Qed.
Lemma lookup_found f keep cwd p l : lookup cwd f keep p = WFound l -> exists m, f l = Some m.
Proof. unfold lookup. destruct p; [discriminate|]. apply walk_found. Qed.

(** A longer path continues where the shorter one leads. *)
Lemma walk_app f keep n : forall cur cs l rest, rest <> [] -> walk f false n cur cs = WFound l ->
  exists k, walk f keep n cur (cs ++ rest) = walk f keep k l rest.
Proof.
  induction n as [|n IHn]; intros cur cs; revert cur; induction cs as [|c cs IH]; intros cur l rest N;
    cbn [app]; rewrite ?walk_nil, ?walk_cons.
  1,3: destruct (f cur) as [m|] eqn:E; [|discriminate]; intros H; injection H as <-; eauto.
  all: assert (NN : is_nil (cs ++ rest) = false) by (destruct cs; auto; destruct rest; auto; congruence).
  all: destruct (f cur) as [[| |]|] eqn:E; try discriminate;
    (destruct (is_nil c || bytes_eqb c dot); [apply IH, N|]); (destruct (bytes_eqb c dotdot); [apply IH, N|]);
    (destruct (f (c :: cur)) as [m|] eqn:E2; [|destruct (forallb is_nil cs); discriminate]);
    destruct m as [| |tgt]; try (apply IH, N); cbn [andb]; rewrite NN, andb_false_r; try discriminate.
  rewrite app_assoc. apply IHn, N.
Qed.

Lemma strsep_app c a b : strsep c (a ++ c :: b) = strsep c a ++ strsep c b.
Proof.
  induction a as [|x a IH]; cbn.
  - now rewrite byte_eqb_refl.
  - destruct (byte_eqb x c); [now rewrite IH|]. rewrite IH. destruct (strsep_cons c a) as (h & t & ->). reflexivity.
Qed.

Lemma one_name (c : bytes) : ~ In SLASH c -> strsep SLASH c = @cons bytes c (@nil bytes).
Proof. apply strsep_none. Qed.

Lemma lookup_app f keep cwd p q l : lookup cwd f false p = WFound l ->
  exists k, lookup cwd f keep (p ++ SLASH :: q) = walk f keep k l (strsep SLASH q).
Proof.
  unfold lookup. destruct p as [|x p]; [discriminate|]. intros H. cbn [app].
  change (x :: p ++ SLASH :: q) with ((x :: p) ++ SLASH :: q). rewrite strsep_app.
  destruct (strsep_cons SLASH q) as (h & t & Q).
  replace (absolute (x :: p ++ SLASH :: q)) with (absolute (x :: p)) by reflexivity.
  apply walk_app; auto. rewrite Q. discriminate.
Qed.

(** Along ordinary names, through directories. *)
Definition plain_name (c : bytes) : Prop := c <> [] /\ c <> dot /\ c <> dotdot.

Lemma plain_name_tests c : plain_name c -> (is_nil c || bytes_eqb c dot = false) /\ bytes_eqb c dotdot = false.
Proof.
  intros (A & B & C). apply bytes_eqb_neq in B, C. split; auto. rewrite B, orb_false_r. destruct c; auto. congruence.
Qed.

Lemma walk_one f keep n cur c rest t : f cur = Some (VDir t) -> plain_name c ->
  walk f keep n cur (c :: rest) =
  match f (c :: cur) with
  | None => if forallb is_nil rest then WMissing (c :: cur) else WNoEnt
  | Some (VLink tgt) =>
    if keep && is_nil rest then WFound (c :: cur)
    else match n with 0 => WErr | S k => walk f keep k (after_link cur tgt) (strsep SLASH tgt ++ rest) end
  | Some _ => walk f keep n (c :: cur) rest
  end.
Proof. intros D P. rewrite walk_cons, D. destruct (plain_name_tests c P) as [-> ->]. reflexivity. Qed.

(** Empty names change nothing as long as the walk is in a directory. *)
Lemma walk_empty f keep n cur rest t : f cur = Some (VDir t) -> walk f keep n cur ([] :: rest) = walk f keep n cur rest.
Proof. intros D. rewrite walk_cons, D. reflexivity. Qed.
