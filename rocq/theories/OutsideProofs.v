(** * What builds leave alone. *)

From Coq Require Import ZArith Arith Ascii String Lia Bool List.
From Verif Require Import Base FileSys Cookie CookieProofs SpecNames BuildStep Build SpecBuild Plan SpecPlan FlAst FlState FlInterp FlMonad FlFrame SpecSettled SettledProofs Bob Project ProjectProofs ApartProofs.
Import ListNotations.
Local Open Scope nat_scope.

(** ** Scripts *)
Section Steps.
Variable named : bytes -> Prop.
Notation good_payload := (good_payload named).
Lemma add_one_good r : good_payload (rq_data r) -> forall ss ss', Forall (fun s => Forall good_payload (bs_data s)) ss -> add_build_step step_cb_eqb ss r = Ok ss' -> Forall (fun s => Forall good_payload (bs_data s)) ss'.
Proof.
  intro G. induction ss as [|s ss IH]; intros ss' F A; cbn [add_build_step] in A.
  - injection A as <-. constructor; [|constructor]. cbn. auto.
  - inversion F as [|? ? F1 F2]; subst. destruct ss as [|s2 ss].
    + destruct (Z.eqb _ _); [|injection A as <-; constructor; [exact F1|constructor; [cbn; auto|constructor]]].
      destruct (negb _); [discriminate|]. destruct (negb _); [discriminate|]. injection A as <-. constructor; [|constructor]. cbn. apply Forall_app. auto.
    + change (bind (add_build_step step_cb_eqb (s2 :: ss) r) (fun rest' => Ok (s :: rest')) = Ok ss') in A.
      destruct (add_build_step step_cb_eqb (s2 :: ss) r) as [x| | | |] eqn:Q; try discriminate. injection A as <-. constructor; [exact F1|]. now apply IH.
Qed.
Lemma add_all_good : forall rs ss ss', Forall (fun r => good_payload (rq_data r)) rs -> Forall (fun s => Forall good_payload (bs_data s)) ss -> add_all step_cb_eqb ss rs = Ok ss' ->
  Forall (fun s => Forall good_payload (bs_data s)) ss'.
Proof.
  induction rs as [|r rs IH]; intros ss ss' G F A; cbn [add_all] in A; [injection A as <-; exact F|]. inversion G as [|? ? G1 G2]; subst.
  destruct (add_build_step step_cb_eqb ss r) as [x| | | |] eqn:Q; try discriminate. exact (IH _ _ G2 (add_one_good r G1 _ _ F Q) A).
Qed.
Definition good_bstep (b : bstep) : Prop := match b with SCompile its => Forall (good_item named) its | SLink r => exists y, lk_out r = cstr y /\ named y end.
Lemma compile_payload_good : forall ds its, Forall good_payload ds -> compile_payload ds = Ok its -> Forall (good_item named) its.
Proof.
  induction ds as [|[x|x] ds IH]; intros its F A; cbn [compile_payload] in A; try discriminate; [injection A as <-; constructor|]. inversion F as [|? ? F1 F2]; subst.
  destruct (compile_payload ds) as [y| | | |]; try discriminate. injection A as <-. apply Forall_app. split; [exact F1|]. now apply IH.
Qed.
Lemma steps_of_good : forall ss bs, Forall (fun s => Forall good_payload (bs_data s)) ss -> steps_of ss = Ok bs -> Forall good_bstep bs.
Proof.
  induction ss as [|s ss IH]; intros bs F A; cbn [steps_of] in A; [injection A as <-; constructor|]. inversion F as [|? ? F1 F2]; subst.
  destruct (step_of s) as [b| | | |] eqn:Q; try discriminate. cbn [bind] in A. destruct (steps_of ss) as [bs'| | | |]; try discriminate. injection A as <-. constructor; [|now apply IH].
  unfold step_of in Q. destruct (bs_cb s).
  - destruct (compile_payload (bs_data s)) as [its| | | |] eqn:P; try discriminate. injection Q as <-. exact (compile_payload_good _ _ F1 P).
  - destruct (bs_data s) as [|[x|x] [|]]; try discriminate. injection Q as <-. now inversion F1.
Qed.
End Steps.

(** ** Names *)
Lemma object_plain sg out src c : nul_free out -> gen_cookie sg out src (lit "o") = Ok c -> nul_free c.
Proof.
  intros No E. apply gen_cookie_shape in E; [|intros [Q|[]]; discriminate]. subst c. unfold cookie_tail. repeat rewrite nul_free_app.
  repeat split; auto; try (apply nul_free_lit; reflexivity).
  - unfold flat. intro I. apply in_map_iff in I as (x & Q & I). unfold flat1 in Q. destruct (byte_eqb x SLASH); [discriminate|]. subst x. exact (cstr_is_nul_free src I).
  - apply nul_free_hex. pose proof (str_hash_range sg src). lia.
Qed.
Lemma side_direct dir k p : direct_child dir p -> direct_child dir (side_file k p).
Proof.
  intros (name & -> & A & B & _). exists (name ++ side_ext k). unfold side_file. rewrite <- !app_assoc. split; [reflexivity|].
  assert (L : 5 <= length (name ++ side_ext k)) by (rewrite app_length; destruct k; cbn; destruct name; cbn; try congruence; lia).
  repeat split; try (intro Q; rewrite Q in L; cbn in L; lia). intro I. apply in_app_or in I as [I|I]; [contradiction|]. revert I. destruct k; cbn; intuition discriminate.
Qed.

Theorem outside_alone sg out listing pow exists_ files n prefix ss s bs s' E w w' p :
  nul_free out -> (forall q ss, files q = FlInterp.File ss -> no_element_assignment ss) -> no_element_assignment ss ->
  setup sg out listing pow exists_ files n prefix ss = Ret tt s -> project_steps s = Ret (Ok bs) s' ->
  (forall o t f, snd (installer E o t f) p = f p) -> ~ direct_child (out ++ lit "/bob") p ->
  during E bs w w' \/ (exists rv, run_steps E bs w rv w') -> Build.files w' p = Build.files w p.
Proof.
  intros No F K S0 B I D R.
  set (named := fun y => direct_child (out ++ lit "/bob") (cstr y)).
  assert (G : Forall (good_bstep named) bs).
  { unfold setup in S0. destruct (run _ _ _ _ _) as [u t|t| | |] eqn:Q; try discriminate.
    assert (t = s).
    { apply bind_ret_inv in S0 as (vs & t1 & E1 & E2). destruct (existsb _ _); [|discriminate]. apply ret_inv in E2 as (_ & <-). unfold top_vars in E1.
      apply bind_ret_inv in E1 as (l & t2 & E3 & E1). apply cur_stack_inv in E3 as (-> & _). destruct (rev l) as [|i l']; [discriminate|].
      apply bind_ret_inv in E1 as (sc & t3 & E4 & E1). apply get_scope_inv in E4 as (-> & _). now apply ret_inv in E1 as (_ & ->). }
    subst t. destruct u. unfold project_steps in B. apply bind_ret_inv in B as (h & s1 & B1 & B). apply gets_inv in B1 as (-> & ->).
    apply bind_ret_inv in B as (rs & s2 & B1 & B). apply ret_inv in B as (B & _).
    assert (P : Forall (fun r => good_payload named (rq_data r)) rs).
    { apply (products_named named sg out listing pow exists_ files n (import_dirs prefix) ss s rs s2); try assumption.
      - intros t x X. unfold named. rewrite cstr_nul_free by exact (object_plain _ _ _ _ No X). apply (gen_cookie_direct sg out t (lit "o")); [intros [?|[]]; discriminate|discriminate|exact X].
      - intros k ts. unfold named. rewrite cstr_nul_free by now apply product_nul_free. apply link_cookie_direct. }
    symmetry in B. destruct (add_all step_cb_eqb [] rs) as [st| | | |] eqn:A; try discriminate. exact (steps_of_good _ _ _ (add_all_good _ _ _ _ P (Forall_nil _) A) B). }
  assert (Ap : forall o, (exists y, o = cstr y /\ named y) -> apart p o).
  { intros o (y & -> & N) [->|(k & ->)]; apply D; [exact N|now apply side_direct]. }
  assert (A : Forall (step_apart p) bs).
  { eapply Forall_impl; [|exact G]. intros [its|r] X; cbn [good_bstep step_apart] in *; [|now apply Ap]. eapply Forall_impl; [|exact X]. intros it Y. now apply Ap. }
  destruct R as [R|(rv & R)]; [exact (during_apart E p I bs w w' A R)|exact (run_steps_apart E p I bs w rv w' A R)].
Qed.
