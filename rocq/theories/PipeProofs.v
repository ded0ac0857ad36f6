(** * Proofs about collecting output. *)

From Coq Require Import Arith Ascii Lia Bool List.
From Verif Require Import Base Pipe.
Import ListNotations.

Lemma take_next {A} k : forall (l : list A) b t, skipn k l = b :: t -> firstn (S k) l = firstn k l ++ [b] /\ skipn (S k) l = t.
Proof.
  induction k as [|k IH]; intros [|x l] b t H; cbn in H; try discriminate.
  - injection H as -> ->. split; reflexivity.
  - destruct (IH l b t H) as [A1 A2]. split; [|exact A2]. cbn [firstn app]. f_equal. exact A1.
Qed.

Section Pipe.
Variable cap : nat.

Definition got (p : phase) : bytes := match p with PWait => [] | PRead g | PDone g => g end.

(** Nothing is lost or reordered; the parent reads only after the child ended; the pipe never overflows. *)
Record pinv (output : bytes) (s : pst) : Prop := {
  pi_all : got (ph s) ++ buf s ++ togo s = output;
  pi_ended : ended s = true -> togo s = [];
  pi_read : ph s <> PWait -> ended s = true;
  pi_done : forall g, ph s = PDone g -> buf s = [];
  pi_cap : length (buf s) <= cap;
}.

Lemma pinv_runs output n s : pruns cap n (pstart output) s -> pinv output s.
Proof.
  remember (pstart output) as s0. intros H. revert Heqs0. induction H as [s|n s s' s'' H IH St]; intros ->.
  - constructor; cbn; auto; try discriminate; try congruence. lia.
  - specialize (IH eq_refl). destruct IH as [A B C D F].
    destruct St as [b t bf p L|bf p|bf t|c bf t e g N L|t g]; cbn [buf togo ended ph] in *.
    + constructor; cbn [buf togo ended ph]; auto.
      * rewrite <- A, <- app_assoc. reflexivity.
      * discriminate.
      * intros g' ->. exfalso. assert (false = true); [apply C|]; discriminate.
      * rewrite app_length. cbn. lia.
    + constructor; cbn [buf togo ended ph]; auto.
    + constructor; cbn [buf togo ended ph]; auto. discriminate.
    + cbn [got] in A. constructor; cbn [buf togo ended ph got]; auto.
      * rewrite <- A, <- !app_assoc. reflexivity.
      * intros _. apply C. discriminate.
      * discriminate.
      * rewrite app_length in F. lia.
    + constructor; cbn [buf togo ended ph]; auto.
Qed.

(** What still has to happen. *)
Definition todo (s : pst) : nat :=
  2 * length (togo s) + length (buf s) + (if ended s then 0 else 1) +
  match ph s with PWait => 2 | PRead _ => 1 | PDone _ => 0 end.

Lemma pstep_todo s s' : pstep cap s s' -> todo s' < todo s.
Proof.
  intros [b t bf p L|bf p|bf t|c bf t e g N L|t g]; unfold todo; cbn [buf togo ended ph]; rewrite ?app_length; cbn [length]; try lia.
  destruct c; [congruence|]. cbn [length]. lia.
Qed.

Lemma pruns_bound n s s' : pruns cap n s s' -> n + todo s' <= todo s.
Proof. induction 1 as [|n s s' s'' H IH St]; auto. apply pstep_todo in St. lia. Qed.

Theorem every_run_short output n s : pruns cap n (pstart output) s -> n <= 2 * length output + 3.
Proof. intros H. apply pruns_bound in H. unfold todo, pstart in H. cbn [buf togo ended ph length] in H. lia. Qed.

Theorem small_completes output n s : length output <= cap -> pruns cap n (pstart output) s ->
  ph s = PDone output \/ exists s', pstep cap s s'.
Proof.
  intros L H. destruct (pinv_runs _ _ _ H) as [A B C D F]. destruct s as [bf t e p]. cbn [buf togo ended ph] in *.
  destruct e.
  - rewrite (B eq_refl) in *. rewrite app_nil_r in A. destruct p as [|g|g].
    + right. eexists. constructor.
    + right. destruct bf as [|b bf]; [eexists; constructor|]. exists (PSt bf [] true (PRead (g ++ [b]))).
      apply (ps_read cap [b]); [discriminate|]. unfold chunk_size. cbn [length]. apply le_n_S, Nat.le_0_l.
    + left. rewrite (D g eq_refl), app_nil_r in A. cbn in A. congruence.
  - assert (p = PWait). { destruct p; auto; exfalso; assert (false = true) by (apply C; discriminate); discriminate. } subst p.
    right. destruct t as [|b t]; [eexists; constructor|]. eexists. constructor.
    cbn in A. subst output. rewrite app_length in L. cbn in L. lia.
Qed.

Theorem done_is_all output n s g : pruns cap n (pstart output) s -> ph s = PDone g -> g = output.
Proof.
  intros H P. destruct (pinv_runs _ _ _ H) as [A B C D F]. rewrite P in *. cbn [got] in A.
  rewrite (D g eq_refl), (B (C ltac:(discriminate))), !app_nil_r in A. exact A.
Qed.

Theorem large_never output n s : cap < length output -> pruns cap n (pstart output) s -> ph s = PWait /\ ended s = false.
Proof.
  intros L H. remember (pstart output) as s0. revert Heqs0.
  induction H as [s|n s s' s'' H IH St]; intros ->; [split; reflexivity|].
  destruct (IH eq_refl) as [P E]. pose proof (pinv_runs _ _ _ H) as [A B C D F]. destruct St; cbn [ph ended buf togo] in *; auto; try discriminate.
  exfalso. subst p. cbn in A. rewrite app_nil_r in A. subst output. lia.
Qed.

Theorem large_stuck output : cap < length output -> exists n s, pruns cap n (pstart output) s /\ forall s', ~ pstep cap s s'.
Proof.
  intros L. assert (X : forall k, k <= cap -> exists s, pruns cap k (pstart output) s /\ buf s = firstn k output /\ togo s = skipn k output /\ ended s = false /\ ph s = PWait).
  { induction k as [|k IH]; intros Hk.
    - exists (pstart output). repeat split; constructor.
    - destruct IH as (s & H & Eb & Et & Ee & Ep); [lia|]. destruct s as [bf t e p]. cbn in *. subst.
      destruct (skipn k output) as [|b t] eqn:Sk.
      + exfalso. assert (length (skipn k output) = 0) by now rewrite Sk. rewrite skipn_length in H0. lia.
      + exists (PSt (firstn k output ++ [b]) t false PWait). split; [|split; [|split; [|split]]]; auto; cbn [buf togo].
        * econstructor; [exact H|]. constructor. rewrite firstn_length. lia.
        * symmetry. apply (proj1 (take_next k output b t Sk)).
        * symmetry. apply (proj2 (take_next k output b t Sk)). }
  destruct (X cap (le_n _)) as (s & H & Eb & Et & Ee & Ep). exists cap, s. split; auto.
  intros s' St. destruct s as [bf t e p]. cbn in *. subst. assert (F1 : length (firstn cap output) = cap) by (rewrite firstn_length; lia).
  assert (F2 : skipn cap output <> []). { intros Z. assert (Z2 : length (skipn cap output) = 0) by now rewrite Z. rewrite skipn_length in Z2. lia. }
  revert F1 F2 St. generalize (firstn cap output) (skipn cap output). clear. intros x y F1 F2 St. inversion St; subst; [lia|congruence].
Qed.
End Pipe.
