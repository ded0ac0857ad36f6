From Coq Require Import ZArith Znumtheory Zpow_facts Ascii String Lia Bool List Permutation.
From Verif Require Import Base Hash Cookie SpecNames.
Import ListNotations.

(** ** Splitting at the last dot *)

Lemma split_last (d : ascii) (a b x y : bytes) :
  ~ In d x -> ~ In d y -> a ++ d :: x = b ++ d :: y -> a = b /\ x = y.
Proof.
  intros Hx Hy. revert b. induction a as [|c a IH]; intros [|c' b]; simpl; intros E.
  - inversion E; auto.
  - inversion E; subst. exfalso; apply Hx. apply in_or_app; right; left; auto.
  - inversion E; subst. exfalso; apply Hy. apply in_or_app; right; left; auto.
  - inversion E; subst. destruct (IH b H1) as [-> ->]; auto.
Qed.

(** ** Hexadecimal *)

Open Scope Z_scope.

Definition hex_val (c : ascii) : Z :=
  let n := Z.of_N (N_of_ascii c) in if n <? 58 then n - 48 else n - 87.

Definition is_hexd (c : ascii) : Prop := exists d, 0 <= d < 16 /\ c = hex_digit d.

Lemma hex_digit_cases d : 0 <= d < 16 -> 
  d = 0 \/ d = 1 \/ d = 2 \/ d = 3 \/ d = 4 \/ d = 5 \/ d = 6 \/ d = 7 \/ d = 8 \/ d = 9 \/ d = 10 \/
  d = 11 \/ d = 12 \/ d = 13 \/ d = 14 \/ d = 15.
Proof. lia. Qed.

Lemma hex_val_digit d : 0 <= d < 16 -> hex_val (hex_digit d) = d.
Proof.
  intros H. apply hex_digit_cases in H.
  repeat (destruct H as [->|H]; [reflexivity|]). subst; reflexivity.
Qed.

Lemma hexd_not c : is_hexd c -> c <> DOT /\ c <> SLASH /\ c <> NUL.
Proof.
  intros [d [H ->]]. apply hex_digit_cases in H.
  repeat (destruct H as [->|H]; [repeat split; discriminate|]). subst; repeat split; discriminate.
Qed.

Fixpoint unhex_rev (s : bytes) : Z :=
  match s with [] => 0 | c :: s' => hex_val c + 16 * unhex_rev s' end.

Lemma unhex_hex_rev n : forall z, 0 <= z < 16 ^ Z.of_nat n -> unhex_rev (hex_rev n z) = z.
Proof.
  induction n as [|n IH]; intros z Hz; cbn [hex_rev].
  - change (16 ^ Z.of_nat 0) with 1 in Hz. cbn. lia.
  - destruct (Z.eqb_spec z 0) as [E|E]; cbn [unhex_rev]; [congruence|].
    assert (Hm : 0 <= z mod 16 < 16) by (apply Z.mod_pos_bound; lia).
    rewrite hex_val_digit by lia. rewrite IH.
    + pose proof (Z.div_mod z 16 ltac:(lia)). lia.
    + replace (Z.of_nat (S n)) with (Z.of_nat n + 1) in Hz by lia.
      rewrite Z.pow_add_r in Hz by lia. change (16 ^ 1) with 16 in Hz.
      split; [apply Z.div_pos; lia|]. apply Z.div_lt_upper_bound; lia.
Qed.

Lemma hex_rev_hexd n : forall z, 0 <= z -> Forall is_hexd (hex_rev n z).
Proof.
  induction n as [|n IH]; intros z Hz; simpl; auto.
  destruct (z =? 0); constructor.
  - exists (z mod 16). split; auto. apply Z.mod_pos_bound; lia.
  - apply IH. apply Z.div_pos; lia.
Qed.

Lemma hex_rev_nonempty z : 0 < z -> hex_rev 16 z <> [].
Proof. intros H. cbn [hex_rev]. destruct (Z.eqb_spec z 0) as [E|E]; [lia | discriminate]. Qed.

Lemma hex64_hexd z : 0 <= z -> Forall is_hexd (hex64 z).
Proof.
  intros H. unfold hex64. destruct (z =? 0).
  - constructor; auto. exists 0; split; [lia | reflexivity].
  - apply Forall_rev. now apply hex_rev_hexd.
Qed.

Lemma hex64_not_in z c : 0 <= z -> c = DOT \/ c = SLASH \/ c = NUL -> ~ In c (hex64 z).
Proof.
  intros Hz Hc Hin. pose proof (hex64_hexd z Hz) as F. rewrite Forall_forall in F.
  destruct (hexd_not c (F c Hin)) as (A & B & C). destruct Hc as [->|[->| ->]]; auto.
Qed.

Lemma hex64_inj a b : 0 <= a < two64 -> 0 <= b < two64 -> hex64 a = hex64 b -> a = b.
Proof.
  intros Ha Hb E.
  assert (G : forall z, 0 <= z < two64 -> unhex_rev (rev (hex64 z)) = z).
  { intros z Hz. unfold hex64. destruct (z =? 0) eqn:E0.
    - apply Z.eqb_eq in E0. subst. reflexivity.
    - rewrite rev_involutive. apply unhex_hex_rev. 
      replace (16 ^ Z.of_nat 16) with two64 by reflexivity. exact Hz. }
  rewrite <- (G a Ha), <- (G b Hb), E. reflexivity.
Qed.

(** ** The hash as a polynomial *)

Definition hpoly (sg : bool) (s : bytes) (h0 : Z) : Z :=
  fold_left (fun h c => 33 * h + char_val sg c) s h0.

Lemma hash_step_eq sg h c : hash_step sg h c = (33 * h + char_val sg c) mod two64.
Proof.
  unfold hash_step, wrap64. rewrite Z.shiftl_mul_pow2 by lia. change (2 ^ 5) with 32.
  assert (two64 <> 0) by (unfold two64; lia).
  rewrite Zplus_mod_idemp_r, Zplus_mod_idemp_l.
  rewrite <- Z.add_assoc, Zplus_mod_idemp_l. f_equal. lia.
Qed.

Lemma hash_poly_gen sg s : forall h0, fold_left (hash_step sg) s (h0 mod two64) = hpoly sg s h0 mod two64.
Proof.
  unfold hpoly. induction s as [|c s IH]; intros h0; simpl; auto.
  rewrite hash_step_eq. rewrite <- IH. f_equal.
  rewrite <- (Zplus_mod_idemp_l (33 * h0)). rewrite <- Zmult_mod_idemp_r. 
  now rewrite Zplus_mod_idemp_l.
Qed.

Lemma str_hash_poly sg s : str_hash sg s = hpoly sg s 5381 mod two64.
Proof. unfold str_hash. rewrite <- hash_poly_gen. reflexivity. Qed.

Lemma str_hash_range sg s : 0 <= str_hash sg s < two64.
Proof. rewrite str_hash_poly. apply Z.mod_pos_bound. unfold two64; lia. Qed.

Lemma hpoly_app sg a b h : hpoly sg (a ++ b) h = hpoly sg b (hpoly sg a h).
Proof. unfold hpoly. apply fold_left_app. Qed.

Lemma hpoly_shift sg s : forall h k, hpoly sg s (h + k) = hpoly sg s h + 33 ^ Z.of_nat (length s) * k.
Proof.
  unfold hpoly. induction s as [|c s IH]; intros h k; cbn [fold_left length].
  - change (33 ^ Z.of_nat 0) with 1. lia.
  - replace (33 * (h + k) + char_val sg c) with ((33 * h + char_val sg c) + 33 * k) by lia.
    rewrite IH. replace (Z.of_nat (S (length s))) with (Z.of_nat (length s) + 1) by lia.
    rewrite Z.pow_add_r by lia. lia.
Qed.

(** ** Flattening *)

Definition flat1 (c : ascii) : ascii := if byte_eqb c SLASH then USCORE else c.
Definition flat (s : bytes) : bytes := map flat1 s.

Lemma replace_slash_0 s : replace_slash 0 0 s = s.
Proof. destruct s; reflexivity. Qed.

Lemma replace_slash_here s r : replace_slash 0 (length s) (s ++ r) = flat s ++ r.
Proof.
  induction s as [|c s IH].
  - apply replace_slash_0.
  - cbn. rewrite IH. reflexivity.
Qed.

Lemma replace_slash_more n s r : (length s <= n)%nat -> ~ In SLASH r ->
  replace_slash 0 n (s ++ r) = flat s ++ r.
Proof.
  revert n. induction s as [|c s IH]; intros n Hn Hr; simpl.
  - clear Hn. revert n. induction r as [|c r IHr]; intros n; simpl; auto.
    destruct n as [|n]; auto.
    assert (c <> SLASH) by (intros ->; apply Hr; left; auto).
    rewrite (proj2 (byte_eqb_neq c SLASH)) by assumption.
    f_equal. apply IHr. intro; apply Hr; right; auto.
  - destruct n as [|n]; simpl in Hn; [lia|]. simpl. f_equal. apply IH; auto; lia.
Qed.

Lemma replace_slash_skip p n s : replace_slash (length p) n (p ++ s) = p ++ replace_slash 0 n s.
Proof. induction p as [|c p IH]; simpl; auto. now rewrite IH. Qed.

Lemma flat_no_slash s : ~ In SLASH (flat s).
Proof.
  unfold flat. intros H. apply in_map_iff in H. destruct H as [x [H _]]. unfold flat1 in H.
  destruct (byte_eqb x SLASH) eqn:E; [discriminate|]. subst. now rewrite byte_eqb_refl in E.
Qed.

Definition cookie_tail (sg : bool) (path ext : bytes) : bytes :=
  lit ".cookie." ++ hex64 (str_hash sg path) ++ lit "." ++ ext.

Lemma cookie_tail_no_slash sg path ext : ~ In SLASH ext -> ~ In SLASH (cookie_tail sg path ext).
Proof.
  intros He H. unfold cookie_tail in H. repeat rewrite in_app_iff in H.
  destruct H as [H|[H|[H|H]]]; auto.
  - vm_compute in H. repeat (destruct H as [H|H]; [discriminate|]). auto.
  - apply (hex64_not_in (str_hash sg path) SLASH) in H; auto. pose proof (str_hash_range sg path); lia.
  - vm_compute in H. repeat (destruct H as [H|H]; [discriminate|]). auto.
Qed.

Lemma gen_cookie_shape sg out path ext c :
  ~ In SLASH ext -> gen_cookie sg out path ext = Ok c ->
  c = (out ++ lit "/bob/") ++ flat (cstr path) ++ cookie_tail sg path ext.
Proof.
  intros He. unfold gen_cookie. destruct (Nat.ltb _ _) eqn:E; [discriminate|].
  intros H. injection H as <-. rewrite replace_slash_skip.
  f_equal. apply replace_slash_more.
  - apply cstr_length.
  - now apply cookie_tail_no_slash.
Qed.

Lemma gen_cookie_ok sg out path ext :
  nul_free path -> ~ In SLASH ext ->
  gen_cookie sg out path ext = Ok ((out ++ lit "/bob/") ++ flat path ++ cookie_tail sg path ext).
Proof.
  intros Hn He. pose proof (gen_cookie_shape sg out path ext) as G.
  destruct (gen_cookie sg out path ext) eqn:E; unfold gen_cookie in E; rewrite (cstr_nul_free path Hn) in *.
  - f_equal. now rewrite <- (G a He eq_refl).
  - destruct (Nat.ltb _ _); discriminate.
  - destruct (Nat.ltb _ _); discriminate.
  - match type of E with (if Nat.ltb ?a ?b then _ else _) = _ => destruct (Nat.ltb a b) eqn:L end; [|discriminate].
    apply Nat.ltb_lt in L. rewrite !app_length in L. lia.
  - destruct (Nat.ltb _ _); discriminate.
Qed.

(** *** C01 *)

Lemma gen_cookie_direct sg out path ext c :
  ~ In SLASH ext -> ext <> [] -> gen_cookie sg out path ext = Ok c -> direct_child (out ++ lit "/bob") c.
Proof.
  intros He Hne H. apply gen_cookie_shape in H; auto. subst c.
  exists (flat (cstr path) ++ cookie_tail sg path ext).
  assert (L : (10 <= length (flat (cstr path) ++ cookie_tail sg path ext))%nat).
  { unfold cookie_tail. rewrite !app_length. simpl (length (lit ".cookie.")). simpl (length (lit ".")).
    destruct ext; [congruence|]. simpl (length (_ :: _)). lia. }
  repeat split.
  - change (lit "/bob/") with (lit "/bob" ++ lit "/"). rewrite <- !app_assoc. reflexivity.
  - rewrite in_app_iff. intros [H|H]; [eapply flat_no_slash; eauto | eapply cookie_tail_no_slash; eauto].
  - intros E; rewrite E in L; simpl in L; lia.
  - intros E; rewrite E in L; simpl in L; lia.
  - intros E; rewrite E in L; simpl in L; lia.
Qed.

Lemma link_hash_nonneg sg srcs : 0 <= link_hash sg srcs.
Proof.
  unfold link_hash. assert (G : forall h, 0 <= h -> 0 <= fold_left (fun h s => Z.lxor h (str_hash sg s)) srcs h).
  { induction srcs as [|s srcs IH]; intros h Hh; simpl; auto. apply IH.
    apply Z.lxor_nonneg. pose proof (str_hash_range sg s). lia. }
  apply G. lia.
Qed.

Lemma log2_lt_two64 z : 0 <= z -> (z < two64 <-> z = 0 \/ Z.log2 z < 64).
Proof.
  intros H. change two64 with (2 ^ 64). split.
  - intros L. destruct (Z.eq_dec z 0); auto. right. apply Z.log2_lt_pow2; lia.
  - intros [->|L]; [lia|]. destruct (Z.eq_dec z 0); [lia|]. apply Z.log2_lt_pow2; lia.
Qed.

Lemma lxor_range a b : 0 <= a < two64 -> 0 <= b < two64 -> 0 <= Z.lxor a b < two64.
Proof.
  intros Ha Hb. assert (N : 0 <= Z.lxor a b) by (apply Z.lxor_nonneg; lia). split; auto.
  apply log2_lt_two64; auto. destruct (Z.eq_dec (Z.lxor a b) 0) as [E|E]; auto. right.
  pose proof (Z.log2_lxor a b ltac:(lia) ltac:(lia)) as L.
  assert (La : Z.log2 a < 64). { destruct (proj1 (log2_lt_two64 a ltac:(lia)) ltac:(lia)) as [->|]; auto. reflexivity. }
  assert (Lb : Z.log2 b < 64). { destruct (proj1 (log2_lt_two64 b ltac:(lia)) ltac:(lia)) as [->|]; auto. reflexivity. }
  lia.
Qed.

Lemma link_hash_range sg srcs : 0 <= link_hash sg srcs < two64.
Proof.
  unfold link_hash. assert (G : forall h, 0 <= h < two64 -> 0 <= fold_left (fun h s => Z.lxor h (str_hash sg s)) srcs h < two64).
  { induction srcs as [|s srcs IH]; intros h Hh; simpl; auto. apply IH.
    apply lxor_range; auto. apply str_hash_range. }
  apply G. unfold two64; lia.
Qed.

Lemma not_in_lit_dec c l : has_byte c l = false -> ~ In c l.
Proof. apply has_byte_not_In. Qed.

Lemma link_cookie_direct sg out k srcs : direct_child (out ++ lit "/bob") (link_cookie sg out k srcs).
Proof.
  exists (lit "linker." ++ link_infix k ++ lit ".cookie." ++ hex64 (link_hash sg srcs) ++ lit "." ++ link_ext k).
  repeat split.
  - unfold link_cookie. change (lit "/bob/linker.") with (lit "/bob" ++ lit "/" ++ lit "linker.").
    rewrite <- !app_assoc. reflexivity.
  - rewrite !in_app_iff. intros [H|[H|[H|[H|[H|H]]]]].
    + revert H. apply not_in_lit_dec. reflexivity.
    + revert H. apply not_in_lit_dec. destruct k; reflexivity.
    + revert H. apply not_in_lit_dec. reflexivity.
    + revert H. apply hex64_not_in; auto. apply link_hash_nonneg.
    + revert H. apply not_in_lit_dec. reflexivity.
    + revert H. apply not_in_lit_dec. destruct k; reflexivity.
  - discriminate.
  - discriminate.
  - discriminate.
Qed.

(** *** C02 *)

Lemma cookie_eq_inv sg out p q ext c :
  ~ In SLASH ext -> nul_free p -> nul_free q ->
  gen_cookie sg out p ext = Ok c -> gen_cookie sg out q ext = Ok c ->
  flat p = flat q /\ str_hash sg p = str_hash sg q.
Proof.
  intros He Hp Hq A B. apply gen_cookie_shape in A; auto. apply gen_cookie_shape in B; auto.
  rewrite (cstr_nul_free p Hp) in A. rewrite (cstr_nul_free q Hq) in B. rewrite A in B. clear A.
  apply app_inv_head in B. unfold cookie_tail in B.
  change (lit ".cookie.") with (lit ".cookie" ++ lit ".") in B.
  rewrite !app_assoc in B. apply app_inv_tail in B. apply app_inv_tail in B.
  rewrite <- !app_assoc in B. rewrite (app_assoc (flat p)), (app_assoc (flat q)) in B.
  change (lit "." ++ hex64 (str_hash sg p)) with (DOT :: hex64 (str_hash sg p)) in B.
  change (lit "." ++ hex64 (str_hash sg q)) with (DOT :: hex64 (str_hash sg q)) in B.
  pose proof (str_hash_range sg p). pose proof (str_hash_range sg q).
  apply split_last in B; try (apply hex64_not_in; [lia|auto]).
  destruct B as [B1 B2]. apply app_inv_tail in B1. apply hex64_inj in B2; auto.
Qed.

(** Signed separator differences: [a] and [b] flatten to the same string; their hashes differ by
    48 * sum of e_i * 33^(...) with e_i in {-1, 0, 1}. *)
Fixpoint sdiff (a b : bytes) : Z :=
  match a, b with
  | x :: a', y :: b' =>
    (if byte_eqb x y then 0 else if byte_eqb x SLASH then -1 else 1) * 33 ^ Z.of_nat (length a') + sdiff a' b'
  | _, _ => 0
  end.

Lemma flat1_eq_cases x y : flat1 x = flat1 y -> x = y \/ (x = SLASH /\ y = USCORE) \/ (x = USCORE /\ y = SLASH).
Proof.
  unfold flat1. destruct (byte_eqb x SLASH) eqn:Ex, (byte_eqb y SLASH) eqn:Ey;
    rewrite ?byte_eqb_eq in *; intros H; subst; auto.
Qed.

Lemma hpoly_sdiff sg a : forall b h, flat a = flat b -> hpoly sg a h - hpoly sg b h = 48 * sdiff a b.
Proof.
  induction a as [|x a IH]; intros [|y b] h E; try discriminate; cbn [sdiff].
  - unfold hpoly; cbn; lia.
  - simpl in E. injection E as E1 E2.
    change (hpoly sg (x :: a) h) with (hpoly sg a (33 * h + char_val sg x)).
    change (hpoly sg (y :: b) h) with (hpoly sg b (33 * h + char_val sg y)).
    assert (Dx : (char_val sg x - char_val sg y) = 48 * (if byte_eqb x y then 0 else if byte_eqb x SLASH then -1 else 1)).
    { destruct (flat1_eq_cases x y E1) as [->|[[-> ->]|[-> ->]]].
      - rewrite byte_eqb_refl. lia.
      - destruct sg; reflexivity.
      - destruct sg; reflexivity. }
    set (e := if byte_eqb x y then 0 else if byte_eqb x SLASH then -1 else 1) in *.
    replace (33 * h + char_val sg x) with ((33 * h + char_val sg y) + 48 * e) by lia.
    rewrite hpoly_shift.
    specialize (IH b (33 * h + char_val sg y) E2). lia.
Qed.

Lemma flat_length a b : flat a = flat b -> length a = length b.
Proof. intros E. apply (f_equal (@length _)) in E. unfold flat in E. now rewrite !map_length in E. Qed.

Lemma sdiff_bound a : forall b, 32 * Z.abs (sdiff a b) <= 33 ^ Z.of_nat (length a) - 1.
Proof.
  induction a as [|x a IH]; intros b; cbn [sdiff length]; [simpl; lia|].
  assert (0 < 33 ^ Z.of_nat (length a)) by (apply Z.pow_pos_nonneg; lia).
  replace (Z.of_nat (S (length a))) with (Z.of_nat (length a) + 1) by lia.
  rewrite Z.pow_add_r by lia. change (33 ^ 1) with 33.
  destruct b as [|y b]; [lia|]. specialize (IH b).
  destruct (byte_eqb x y); [|destruct (byte_eqb x SLASH)]; lia.
Qed.

Lemma sdiff_zero a : forall b, flat a = flat b -> sdiff a b = 0 -> a = b.
Proof.
  induction a as [|x a IH]; intros [|y b] E H; try discriminate; auto.
  simpl in E. injection E as E1 E2. cbn [sdiff] in H.
  pose proof (sdiff_bound a b) as B.
  assert (0 < 33 ^ Z.of_nat (length a)) by (apply Z.pow_pos_nonneg; lia).
  destruct (byte_eqb x y) eqn:Exy.
  - apply byte_eqb_eq in Exy. subst. f_equal. apply IH; auto; lia.
  - destruct (byte_eqb x SLASH); exfalso; lia.
Qed.

Lemma pow33_odd n : Z.gcd (33 ^ Z.of_nat n) (2 ^ 60) = 1.
Proof.
  apply Zgcd_1_rel_prime. apply rel_prime_sym.
  destruct n as [|n]; [apply Zgcd_1_rel_prime; apply Z.gcd_1_r|].
  apply Zpow_facts.rel_prime_Zpower; try lia. apply Zgcd_1_rel_prime. reflexivity.
Qed.

(** Two different paths whose hashes agree and which differ only inside a window of at most 12 bytes
    cannot flatten to the same string. *)
Lemma window_distinct sg pre a b post :
  (length a <= 12)%nat -> flat a = flat b ->
  str_hash sg (pre ++ a ++ post) = str_hash sg (pre ++ b ++ post) -> a = b.
Proof.
  intros Hlen Hf Hh. apply sdiff_zero; auto.
  rewrite !str_hash_poly in Hh. rewrite !hpoly_app in Hh.
  set (h := hpoly sg pre 5381) in *.
  pose proof (hpoly_sdiff sg a b h Hf) as D.
  replace (hpoly sg a h) with (hpoly sg b h + 48 * sdiff a b) in Hh by lia.
  rewrite hpoly_shift in Hh.
  set (P := 33 ^ Z.of_nat (length post)) in *. set (X := hpoly sg post (hpoly sg b h)) in *.
  assert (Dv : (two64 | P * (48 * sdiff a b))).
  { apply Z.mod_divide; [unfold two64; lia|].
    replace (P * (48 * sdiff a b)) with ((X + P * (48 * sdiff a b)) - X) by lia.
    rewrite Zminus_mod, Hh, Z.sub_diag. reflexivity. }
  assert (Dv2 : (2 ^ 60 | sdiff a b)).
  { assert (R : (2 ^ 60 | P * (3 * sdiff a b))).
    { destruct Dv as [k Hk]. exists k. change two64 with (16 * 2 ^ 60) in Hk. lia. }
    apply Z.gauss in R; [|rewrite Z.gcd_comm; apply pow33_odd].
    apply Z.gauss in R; auto. }
  pose proof (sdiff_bound a b) as B.
  assert (33 ^ Z.of_nat (length a) <= 33 ^ 12) by (apply Z.pow_le_mono_r; lia).
  change (33 ^ 12) with 1667889514952984961 in *.
  destruct Dv2 as [k Hk]. change (2 ^ 60) with 1152921504606846976 in Hk.
  assert (k = 0) by lia. subst k. lia.
Qed.

Lemma strip_common_prefix (p : bytes) : forall q, p <> q -> length p = length q ->
  exists pre x y p' q', p = pre ++ x :: p' /\ q = pre ++ y :: q' /\ x <> y /\ length p' = length q'.
Proof.
  induction p as [|c p IH]; intros [|d q] Hne Hl; simpl in *; try congruence; try lia.
  destruct (ascii_dec c d) as [->|Hcd].
  - assert (p <> q) by congruence. destruct (IH q H ltac:(lia)) as (pre & x & y & p' & q' & -> & -> & Hxy & Hl').
    exists (d :: pre), x, y, p', q'. repeat split; auto.
  - exists [], c, d, p, q. repeat split; auto; simpl; lia.
Qed.

Lemma strip_common_suffix (p q : bytes) : p <> q -> length p = length q ->
  exists suf x y p' q', p = p' ++ x :: suf /\ q = q' ++ y :: suf /\ x <> y /\ length p' = length q'.
Proof.
  intros Hne Hl.
  destruct (strip_common_prefix (rev p) (rev q)) as (pre & x & y & p' & q' & Hp & Hq & Hxy & Hl').
  - intros E. apply Hne. rewrite <- (rev_involutive p), <- (rev_involutive q), E. reflexivity.
  - now rewrite !rev_length.
  - exists (rev pre), x, y, (rev p'), (rev q'). rewrite <- (rev_involutive p), <- (rev_involutive q), Hp, Hq.
    rewrite !rev_app_distr. simpl. rewrite <- !app_assoc. repeat split; auto. now rewrite !rev_length.
Qed.

Lemma nth_error_mid (l : bytes) x r : nth_error (l ++ x :: r) (length l) = Some x.
Proof. rewrite nth_error_app2 by lia. rewrite Nat.sub_diag. reflexivity. Qed.

Lemma flat_app_inv_head pre a b : flat (pre ++ a) = flat (pre ++ b) -> flat a = flat b.
Proof. unfold flat. rewrite !map_app. apply app_inv_head. Qed.
Lemma flat_app_inv_tail a b post : flat (a ++ post) = flat (b ++ post) -> flat a = flat b.
Proof. unfold flat. rewrite !map_app. apply app_inv_tail. Qed.

Lemma cookie_far_apart sg out p q ext c :
  ~ In SLASH ext -> nul_free p -> nul_free q -> p <> q ->
  gen_cookie sg out p ext = Ok c -> gen_cookie sg out q ext = Ok c ->
  exists i j, (i + 12 <= j)%nat /\ differ_at p q i /\ differ_at p q j.
Proof.
  intros He Hp Hq Hne A B.
  destruct (cookie_eq_inv sg out p q ext c He Hp Hq A B) as [Hf Hh].
  pose proof (flat_length _ _ Hf) as Hl.
  destruct (strip_common_prefix p q Hne Hl) as (pre & x & y & p' & q' & -> & -> & Hxy & Hl').
  assert (Hne2 : x :: p' <> y :: q') by congruence.
  destruct (strip_common_suffix (x :: p') (y :: q') Hne2 ltac:(simpl; lia)) as (suf & u & v & m & n & Hm & Hn & Huv & Hmn).
  assert (Hf2 : flat (m ++ [u]) = flat (n ++ [v])).
  { apply flat_app_inv_head in Hf. rewrite Hm, Hn in Hf.
    apply (flat_app_inv_tail _ _ suf). rewrite <- !app_assoc. exact Hf. }
  assert (Hw : ~ (length (m ++ [u]) <= 12)%nat).
  { intros Hw. rewrite Hm, Hn in Hh.
    assert (E : m ++ [u] = n ++ [v]).
    { apply (window_distinct sg pre _ _ suf Hw Hf2). rewrite <- !app_assoc. exact Hh. }
    apply app_inj_tail in E. destruct E; contradiction. }
  rewrite app_length in Hw. simpl in Hw.
  exists (length pre), (length pre + length m)%nat. split; [lia|]. split.
  - unfold differ_at. rewrite !nth_error_mid. congruence.
  - unfold differ_at. rewrite Hm, Hn.
    rewrite (nth_error_app2 pre) by lia. rewrite (nth_error_app2 pre) by lia.
    replace (length pre + length m - length pre)%nat with (length m) by lia.
    rewrite nth_error_mid. rewrite Hmn. rewrite nth_error_mid. congruence.
Qed.

(** Short corollary: paths of at most 12 bytes never share an object. *)
Lemma cookie_short_distinct sg out p q ext c :
  ~ In SLASH ext -> nul_free p -> nul_free q -> (length p <= 12)%nat ->
  gen_cookie sg out p ext = Ok c -> gen_cookie sg out q ext = Ok c -> p = q.
Proof.
  intros He Hp Hq Hl A B. destruct (bytes_dec p q) as [|Hne]; auto. exfalso.
  destruct (cookie_eq_inv sg out p q ext c He Hp Hq A B) as [Hf _].
  pose proof (flat_length _ _ Hf) as Hl2.
  destruct (cookie_far_apart sg out p q ext c He Hp Hq Hne A B) as (i & j & Hij & _ & Hj).
  unfold differ_at in Hj. assert (Hp' : nth_error p j = None) by (apply nth_error_None; lia).
  assert (Hq' : nth_error q j = None) by (apply nth_error_None; lia). congruence.
Qed.

(** *** C03 *)

Lemma app_last_neq (a b : bytes) x y : a ++ [x] = b ++ [y] -> x = y.
Proof. intros E. apply app_inj_tail in E. tauto. Qed.

Lemma side_file_inj k1 k2 c1 c2 : side_file k1 c1 = side_file k2 c2 -> k1 = k2 /\ c1 = c2.
Proof.
  unfold side_file.
  assert (X : forall e1 x1 e2 x2, c1 ++ (e1 ++ [x1]) = c2 ++ (e2 ++ [x2]) -> x1 = x2 /\ c1 ++ e1 = c2 ++ e2).
  { intros. rewrite !app_assoc in H. apply app_inj_tail in H. tauto. }
  intros E. destruct k1, k2; try (apply app_inv_tail in E; auto; fail); exfalso.
  - change (side_ext SFlags) with (lit ".flag" ++ lit "s") in E.
    change (side_ext SDeps) with (lit ".dep" ++ lit "s") in E.
    apply X in E. destruct E as [_ E].
    change (lit ".flag") with (lit ".fla" ++ lit "g") in E. change (lit ".dep") with (lit ".de" ++ lit "p") in E.
    apply X in E. destruct E; discriminate.
  - change (side_ext SFlags) with (lit ".flag" ++ lit "s") in E. change (side_ext SLog) with (lit ".lo" ++ lit "g") in E.
    apply X in E. destruct E; discriminate.
  - change (side_ext SFlags) with (lit ".flag" ++ lit "s") in E.
    change (side_ext SDeps) with (lit ".dep" ++ lit "s") in E.
    apply X in E. destruct E as [_ E].
    change (lit ".flag") with (lit ".fla" ++ lit "g") in E. change (lit ".dep") with (lit ".de" ++ lit "p") in E.
    apply X in E. destruct E; discriminate.
  - change (side_ext SDeps) with (lit ".dep" ++ lit "s") in E. change (side_ext SLog) with (lit ".lo" ++ lit "g") in E.
    apply X in E. destruct E; discriminate.
  - change (side_ext SFlags) with (lit ".flag" ++ lit "s") in E. change (side_ext SLog) with (lit ".lo" ++ lit "g") in E.
    apply X in E. destruct E; discriminate.
  - change (side_ext SDeps) with (lit ".dep" ++ lit "s") in E. change (side_ext SLog) with (lit ".lo" ++ lit "g") in E.
    apply X in E. destruct E; discriminate.
Qed.

(** The products of one build: objects, and link/archive products. *)
Inductive product (sg : bool) (out : bytes) : bytes -> Prop :=
| PObj src c : gen_cookie sg out src (lit "o") = Ok c -> product sg out c
| PLink k srcs : product sg out (link_cookie sg out k srcs).

Lemma obj_last sg out src c : gen_cookie sg out src (lit "o") = Ok c -> exists r, c = r ++ lit "o".
Proof.
  intros H. apply gen_cookie_shape in H.
  - subst c. unfold cookie_tail. rewrite !app_assoc. eauto.
  - apply not_in_lit_dec; reflexivity.
Qed.

Lemma link_last sg out k srcs : exists r, link_cookie sg out k srcs = r ++ link_ext k.
Proof. unfold link_cookie. rewrite !app_assoc. eauto. Qed.

Lemma side_last k c : exists r, side_file k c = r ++ (match k with SLog => lit "g" | _ => lit "s" end).
Proof.
  unfold side_file. destruct k; simpl side_ext.
  - exists (c ++ lit ".flag"). now rewrite <- app_assoc.
  - exists (c ++ lit ".dep"). now rewrite <- app_assoc.
  - exists (c ++ lit ".lo"). now rewrite <- app_assoc.
Qed.

Lemma side_not_product sg out p k c : product sg out p -> side_file k c <> p.
Proof.
  intros P E. destruct (side_last k c) as [r Hr]. rewrite Hr in E. clear Hr.
  destruct P as [src p H|lk srcs].
  - apply obj_last in H. destruct H as [r' ->]. destruct k; apply app_last_neq in E; discriminate.
  - destruct (link_last sg out lk srcs) as [r' Hr']. rewrite Hr' in E.
    destruct k, lk; apply app_last_neq in E; discriminate.
Qed.

Lemma obj_not_link sg out src c k srcs : gen_cookie sg out src (lit "o") = Ok c -> c <> link_cookie sg out k srcs.
Proof.
  intros H E. apply obj_last in H. destruct H as [r ->]. destruct (link_last sg out k srcs) as [r' Hr'].
  rewrite Hr' in E. destruct k; apply app_last_neq in E; discriminate.
Qed.

(** *** C04 *)

Lemma link_hash_fold sg srcs : forall h,
  fold_left (fun h s => Z.lxor h (str_hash sg s)) srcs h = Z.lxor h (link_hash sg srcs).
Proof.
  unfold link_hash. induction srcs as [|s srcs IH]; intros h; simpl.
  - now rewrite Z.lxor_0_r.
  - rewrite (IH (Z.lxor h _)), (IH (str_hash sg s)). now rewrite Z.lxor_assoc.
Qed.

Lemma link_hash_cons sg s srcs : link_hash sg (s :: srcs) = Z.lxor (str_hash sg s) (link_hash sg srcs).
Proof. unfold link_hash at 1. simpl. apply link_hash_fold. Qed.

Lemma link_hash_perm sg a b : Permutation a b -> link_hash sg a = link_hash sg b.
Proof.
  induction 1; auto.
  - rewrite !link_hash_cons. congruence.
  - rewrite !link_hash_cons. rewrite <- !Z.lxor_assoc. f_equal. apply Z.lxor_comm.
  - congruence.
Qed.

Lemma link_cookie_perm sg out k a b : Permutation a b -> link_cookie sg out k a = link_cookie sg out k b.
Proof. intros H. unfold link_cookie. now rewrite (link_hash_perm sg a b H). Qed.

Lemma link_cookie_inv sg out k1 k2 a b :
  link_cookie sg out k1 a = link_cookie sg out k2 b -> k1 = k2 /\ link_hash sg a = link_hash sg b.
Proof.
  intros E. assert (k1 = k2).
  { destruct (link_last sg out k1 a) as [r1 H1]. destruct (link_last sg out k2 b) as [r2 H2].
    rewrite H1, H2 in E. destruct k1, k2; auto; apply app_last_neq in E; discriminate. }
  subst k2. split; auto. unfold link_cookie in E.
  apply app_inv_head in E. apply app_inv_head in E. apply app_inv_head in E. apply app_inv_head in E.
  apply app_inv_tail in E. apply hex64_inj in E; auto using link_hash_range.
Qed.

Lemma flat1_eq x y : flat1 x = flat1 y -> x = y \/ (x = SLASH /\ y = USCORE) \/ (x = USCORE /\ y = SLASH).
Proof.
  unfold flat1. destruct (byte_eqb x SLASH) eqn:E1, (byte_eqb y SLASH) eqn:E2;
  try (apply byte_eqb_eq in E1); try (apply byte_eqb_eq in E2); subst; auto.
Qed.

Lemma cookie_swap sg out p q c i : nul_free p -> nul_free q ->
  gen_cookie sg out p (lit "o") = Ok c -> gen_cookie sg out q (lit "o") = Ok c ->
  nth_error p i = nth_error q i \/
  (nth_error p i = Some SLASH /\ nth_error q i = Some USCORE) \/
  (nth_error p i = Some USCORE /\ nth_error q i = Some SLASH).
Proof.
  intros Hp Hq A B. destruct (cookie_eq_inv sg out p q (lit "o") c) as [F _]; auto.
  { apply not_in_lit_dec; reflexivity. }
  clear - F. revert q i F. induction p as [|x p IH]; intros [|y q] [|i] F; simpl in *; try discriminate; auto.
  - injection F as F1 F2. destruct (flat1_eq x y F1) as [->|[[-> ->]|[-> ->]]]; auto.
  - injection F as F1 F2. auto.
Qed.

Lemma link_hash_app sg a b : link_hash sg (a ++ b) = Z.lxor (link_hash sg a) (link_hash sg b).
Proof.
  induction a as [|x a IH]; simpl.
  - change (link_hash sg []) with 0. destruct (link_hash sg b); reflexivity.
  - rewrite !link_hash_cons, IH. now rewrite Z.lxor_assoc.
Qed.

Lemma lxor_cancel_l a b c : Z.lxor a b = Z.lxor a c -> b = c.
Proof.
  intros H. apply (f_equal (Z.lxor a)) in H. now rewrite <- !Z.lxor_assoc, Z.lxor_nilpotent, !Z.lxor_0_l in H.
Qed.
Lemma lxor_cancel_r a b c : Z.lxor b a = Z.lxor c a -> b = c.
Proof. rewrite (Z.lxor_comm b), (Z.lxor_comm c). apply lxor_cancel_l. Qed.

Lemma link_one_changed sg out k pre post x y :
  link_cookie sg out k (pre ++ x :: post) = link_cookie sg out k (pre ++ y :: post) -> str_hash sg x = str_hash sg y.
Proof.
  intros E. apply link_cookie_inv in E. destruct E as [_ E]. rewrite !link_hash_app, !link_hash_cons in E.
  apply lxor_cancel_l in E. eapply lxor_cancel_r; eauto.
Qed.

Lemma link_one_added sg out k pre post x :
  link_cookie sg out k (pre ++ x :: post) = link_cookie sg out k (pre ++ post) -> str_hash sg x = 0.
Proof.
  intros E. apply link_cookie_inv in E. destruct E as [_ E]. rewrite !link_hash_app, !link_hash_cons in E.
  apply lxor_cancel_l in E. apply (lxor_cancel_r (link_hash sg post)). now rewrite Z.lxor_0_l.
Qed.

Lemma cookie_collision :
  exists p q c, p <> q /\ nul_free p /\ nul_free q /\
  forall sg, gen_cookie sg (lit ".bob") p (lit "o") = Ok c /\ gen_cookie sg (lit ".bob") q (lit "o") = Ok c.
Proof.
  exists (lit "x/b_bab_b_b_babab/b/b/b_babababab_b/b_b/babababab_bab_b_bab/bab/babab_b/b/babab/b.c").
  exists (lit "x_b/bab/b/b/babab_b_b_b/babababab/b_b/b_babababab/bab/b/bab_bab_babab/b_b_babab_b.c").
  exists (lit ".bob/bob/x_b_bab_b_b_babab_b_b_b_babababab_b_b_b_babababab_bab_b_bab_bab_babab_b_b_babab_b.c.cookie.9268daed913f576a.o").
  split; [vm_compute; discriminate|]. split; [apply not_in_lit_dec; reflexivity|]. split; [apply not_in_lit_dec; reflexivity|].
  intros [|]; split; vm_compute; reflexivity.
Qed.
