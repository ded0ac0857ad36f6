(** * Proofs: the order of the install map. *)

From Coq Require Import ZArith Ascii String Lia Bool List Permutation.
From Verif Require Import Base Deps FileSys Frugal FrugalProofs Vfs Install SpecInstall VfsProofs PathProofs InstallProofs InstallAll.
Import ListNotations.

Lemma pairs_perm {A} (R : A -> A -> Prop) (SY : forall a b, R a b -> R b a) l l' : Permutation l l' -> ForallOrdPairs R l -> ForallOrdPairs R l'.
Proof.
  induction 1 as [|x l l' Q IH|x y l|l l' l'' _ IH1 _ IH2]; intro F; [exact F| | |exact (IH2 (IH1 F))].
  - inversion F as [|? ? F1 F2]; subst. constructor; [|exact (IH F2)]. rewrite Forall_forall in *. intros b I. apply F1. exact (Permutation_in b (Permutation_sym Q) I).
  - inversion F as [|? ? F1 F2]; subst. inversion F2 as [|? ? F3 F4]; subst. inversion F1 as [|? ? F5 F6]; subst.
    constructor; [constructor; [apply SY; exact F5|exact F3]|]. constructor; [exact F6|exact F4].
Qed.

Lemma perm_filter {A} (g : A -> bool) l l' : Permutation l l' -> Permutation (filter g l) (filter g l').
Proof.
  induction 1 as [|x l l' Q IH|x y l|l l' l'' _ IH1 _ IH2]; cbn.
  - constructor.
  - destruct (g x); [now constructor|exact IH].
  - destruct (g x), (g y); try apply Permutation_refl. apply perm_swap.
  - exact (perm_trans IH1 IH2).
Qed.

Section Order.
Variables (cwd : loc) (prefix : bytes) (P : loc) (f : vfs) (m m' : list (bytes * bytes)).
Hypothesis PM : Permutation m m'.

Lemma dests_perm : Permutation (dests P m) (dests P m').
Proof. unfold dests. now apply Permutation_map. Qed.

Lemma dests_incl : incl (dests P m') (dests P m).
Proof. intros d I. exact (Permutation_in d (Permutation_sym dests_perm) I). Qed.

Lemma hide_fewer ds ds' keep p l : incl ds ds' -> lookup cwd (hide ds' f) keep p = WFound l -> lookup cwd (hide ds f) keep p = WFound l.
Proof. intros I L. exact (hidden_stays [] [] f f keep cwd p l (changes_refl _ _ _) ds' (incl_nil_l _) L ds I). Qed.

Lemma tame_perm : tame cwd prefix P f m -> tame cwd prefix P f m'.
Proof.
  intros [A B V W D F]. assert (IN : forall e, In e m' -> In e m) by (intros e I; exact (Permutation_in e (Permutation_sym PM) I)).
  constructor.
  - exact (hide_fewer _ _ _ _ _ dests_incl A).
  - exact B.
  - intros k v I. exact (V k v (IN _ I)).
  - intros k v q I. exact (W k v q (IN _ I)).
  - intros k v q I. exact (D k v q (IN _ I)).
  - exact (pairs_perm apart apart_sym _ _ dests_perm F).
Qed.

Lemma good_perm O : (forall k v, In (k, v) m -> good_source cwd O P (dests P m) f k v) -> forall k v, In (k, v) m' -> good_source cwd O P (dests P m') f k v.
Proof.
  intros GS k v I. destruct (GS k v (Permutation_in _ (Permutation_sym PM) I)) as (NK & s & L & NS & K).
  split; [exact NK|]. exists s. split; [exact (hide_fewer _ _ _ _ _ dests_incl L)|]. split; [exact NS|]. destruct K as [K|(K & N & FA)]; [left; exact K|]. right.
  split; [|split; [|exact FA]].
  - destruct K as [K|K]; [left; exact K|]. right. exact (hide_fewer _ _ _ _ _ dests_incl K).
  - intros d J. exact (N d (dests_incl d J)).
Qed.
End Order.

Theorem order_copies S S2 O prefix P clock clock2 m m' w w1 w2 :
  tidy S -> tidy S2 -> s_cwd S2 = s_cwd S -> slash_free (s_cwd S) -> Forall (fun c => c <> []) O -> slash_free O -> Permutation m m' ->
  tame (s_cwd S) prefix P (nodes w) m ->
  (forall k v, In (k, v) m -> good_source (s_cwd S) O P (dests P m) (nodes w) k v) ->
  install_all S (unparse O) {| i_map := Some m; i_prefix := Some prefix |} clock w = Ok (true, w1) ->
  install_all S2 (unparse O) {| i_map := Some m'; i_prefix := Some prefix |} clock2 w = Ok (true, w2) ->
  (forall k v s, In (k, v) m -> lookup (s_cwd S) (nodes w) false k = WFound s -> ~ product O s ->
     holds (nodes w) s (nodes w1) (dest P v) /\ holds (nodes w) s (nodes w2) (dest P v)) /\
  Permutation (copies w1) (copies w2).
Proof.
  intros T T2 CW SC ONE SO PM TM GS R1 R2.
  destruct (entries_copy S (unparse O) prefix clock T O P (nodes w) m (rev (copies w)) TM SC ONE SO eq_refl GS
             m [] 0 w w1 eq_refl (changes_refl P _ _) (fun k v s I => match I with end) (eq_sym (app_nil_r _)) R1) as [H1 C1].
  pose proof (tame_perm _ _ _ _ _ _ PM TM) as TM2. pose proof (good_perm _ _ _ _ _ PM O GS) as GS2. pose proof SC as SC2. rewrite <- CW in TM2, GS2, SC2.
  destruct (entries_copy S2 (unparse O) prefix clock2 T2 O P (nodes w) m' (rev (copies w)) TM2 SC2 ONE SO eq_refl GS2
             m' [] 0 w w2 eq_refl (changes_refl P _ _) (fun k v s I => match I with end) (eq_sym (app_nil_r _)) R2) as [H2 C2].
  split.
  - intros k v s I L NP. split; [exact (H1 k v s I L NP)|]. apply (H2 k v s (Permutation_in _ PM I)); [rewrite CW; exact L|exact NP].
  - rewrite CW in C2. eapply perm_trans; [apply Permutation_rev|]. eapply perm_trans; [|apply Permutation_sym, Permutation_rev]. rewrite C1, C2.
    apply Permutation_app_head, Permutation_map, perm_filter, PM.
Qed.

Lemma holds_same f f1 f2 s d : holds f s f1 d -> holds f s f2 d ->
  content (f1 d) = content (f2 d) /\ (is_directory (f s) -> forall x, content (f1 (x ++ d)) = content (f2 (x ++ d))).
Proof.
  unfold holds. destruct (f s) as [[c t|t|t]|]; try contradiction; intros A B.
  - split; [congruence|]. intros [t' X]. discriminate.
  - split; [exact (eq_trans (A []) (eq_sym (B [])))|]. intros _ x. now rewrite A, B.
Qed.
