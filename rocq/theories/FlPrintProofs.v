(** * Printing and checking in scripts: proofs. *)

From Coq Require Import ZArith Arith Ascii String Lia Bool DecimalString DecimalZ DecimalFacts List.
From Verif Require Import Base FlAst FlState FlInterp FlMonad SpecFlamingo FlEqProofs SpecScript SpecScope FlOpProofs FlExprProofs FlScopeProofs FlReturnProofs FlSeqProofs FlFuel SpecPrint.
Import ListNotations.
Local Open Scope nat_scope.

(** ** Numerals *)

Definition value_of (d : Decimal.uint) (acc : Z) : Z := (fix go d acc := match d with
  | Decimal.Nil => acc | Decimal.D0 d => go d (10 * acc) | Decimal.D1 d => go d (10 * acc + 1) | Decimal.D2 d => go d (10 * acc + 2) | Decimal.D3 d => go d (10 * acc + 3)
  | Decimal.D4 d => go d (10 * acc + 4) | Decimal.D5 d => go d (10 * acc + 5) | Decimal.D6 d => go d (10 * acc + 6) | Decimal.D7 d => go d (10 * acc + 7)
  | Decimal.D8 d => go d (10 * acc + 8) | Decimal.D9 d => go d (10 * acc + 9) end)%Z d acc.
Lemma value_acc : forall d p, Zpos (Pos.of_uint_acc d p) = value_of d (Zpos p).
Proof. induction d; intro p; cbn [Pos.of_uint_acc value_of]; try reflexivity; rewrite IHd; unfold value_of; f_equal; lia. Qed.
Lemma value_uint : forall d, Z.of_uint d = value_of d 0.
Proof.
  unfold Z.of_uint. induction d; cbn [Pos.of_uint Z.of_N]; try reflexivity; try (rewrite value_acc; reflexivity). exact IHd.
Qed.
Lemma value_denotes : forall d l z, denotes l z -> denotes (l ++ lit (NilEmpty.string_of_uint d)) (value_of d z).
Proof.
  induction d; intros l z D; cbn [NilEmpty.string_of_uint lit value_of];
    [rewrite app_nil_r; exact D|..];
    match goal with |- denotes (l ++ lit (String ?c ?r)) _ => change (l ++ lit (String c r)) with (l ++ [c] ++ lit r); rewrite app_assoc; apply IHd end;
    [replace (10 * z)%Z with (10 * z + 0)%Z by lia|..]; apply denotes_digit; auto; split; try lia; reflexivity.
Qed.
Lemma digits_uint : forall d, Forall (fun c => exists z, digit c z) (lit (NilEmpty.string_of_uint d)).
Proof.
  induction d; cbn; constructor; auto;
    [exists 0%Z|exists 1%Z|exists 2%Z|exists 3%Z|exists 4%Z|exists 5%Z|exists 6%Z|exists 7%Z|exists 8%Z|exists 9%Z]; split; try lia; reflexivity.
Qed.
Lemma numeral_uint d : d = Decimal.D0 Decimal.Nil \/ Decimal.nzhead d = d -> d <> Decimal.Nil -> numeral (lit (NilZero.string_of_uint d)) (Z.of_uint d).
Proof.
  intros N E. assert (X : NilZero.string_of_uint d = NilEmpty.string_of_uint d) by (destruct d; auto; congruence). rewrite X, value_uint. split; [|split].
  - apply (value_denotes d [] 0%Z). constructor.
  - apply digits_uint.
  - destruct N as [->|N]; [now left|]. destruct d; try congruence; try (right; eexists _, _; split; [reflexivity|discriminate]).
    exfalso. cbn in N. pose proof (DecimalFacts.nzhead_nonzero d d) as Q. congruence.
Qed.
Lemma dec_decimal z : decimal (dec z) z.
Proof.
  assert (N : Decimal.norm (Z.to_int z) = Z.to_int z) by (rewrite <- (DecimalZ.of_to z) at 2; symmetry; apply DecimalZ.to_of).
  pose proof (DecimalZ.of_to z) as V. unfold dec. destruct (Z.to_int z) as [d|d] eqn:E; cbn [NilZero.string_of_int].
  - left. cbn in V. rewrite <- V. cbn in N. assert (U : Decimal.unorm d = d) by congruence. apply numeral_uint.
    + unfold Decimal.unorm in U. destruct (Decimal.nzhead d) eqn:Z; auto.
    + intros ->. discriminate.
  - right. exists (lit (NilZero.string_of_uint d)). split; [reflexivity|]. cbn in V, N. destruct (Decimal.nzhead d) eqn:Z; try discriminate; injection N as N;
      (split; [rewrite <- V, Z.opp_involutive; apply numeral_uint; [right; congruence|intros ->; discriminate]
              |destruct z; try discriminate E; lia]).
Qed.

Lemma digit_value c d d' : digit c d -> digit c d' -> d = d'.
Proof. intros [B E] [B' E']. rewrite E in E'. lia. Qed.
Lemma not_underscore c d : digit c d -> c <> "_"%char.
Proof. intros [B E] ->. change (N_of_ascii "_"%char) with 95%N in E. lia. Qed.
Lemma denotes_value l z : denotes l z -> Forall (fun c => exists d, digit c d) l -> forall z', denotes l z' -> z = z'.
Proof.
  induction 1 as [|l z D IH|l z c d D IH G]; intros F z' D'.
  - inversion D'; auto; match goal with X : _ ++ [_] = [] |- _ => destruct (app_eq_nil _ _ X); discriminate end.
  - apply Forall_app in F as [_ F]. inversion F as [|? ? (d & G) _]. now apply not_underscore in G.
  - apply Forall_app in F as [F _]. inversion D' as [X|l' z1 D1 X|l' z1 c1 d1 D1 G1 X].
    + symmetry in X. destruct (app_eq_nil _ _ X); discriminate.
    + apply app_inj_tail in X as [-> <-]. now apply not_underscore in G.
    + apply app_inj_tail in X as [-> ->]. rewrite (IH F z1 D1), (digit_value _ _ _ G G1). reflexivity.
Qed.
Lemma no_digit_minus d : ~ digit "-"%char d.
Proof. intros [B E]. change (N_of_ascii "-"%char) with 45%N in E. lia. Qed.
Lemma decimal_value l z z' : decimal l z -> decimal l z' -> z = z'.
Proof.
  intros [(D & F & _)|(m & E & (D & F & _) & _)] [(D' & F' & _)|(m' & E' & (D' & F' & _) & _)].
  - eapply denotes_value; eauto.
  - subst l. inversion F as [|? ? (d & G) _]. now apply no_digit_minus in G.
  - subst l. inversion F' as [|? ? (d & G) _]. now apply no_digit_minus in G.
  - rewrite E in E'. injection E' as <-. assert (- z = - z')%Z by (eapply denotes_value; eauto). lia.
Qed.

(** ** What is written can be told apart *)

Definition stops (r : bytes) : Prop := match r with [] => True | c :: _ => c = ","%char \/ c = "]"%char \/ c = "}"%char \/ c = ":"%char end.

Lemma split_unique (P : ascii -> Prop) : forall l l' r r', Forall P l -> Forall P l' ->
  match r with [] => True | c :: _ => ~ P c end -> match r' with [] => True | c :: _ => ~ P c end -> l ++ r = l' ++ r' -> l = l' /\ r = r'.
Proof.
  induction l as [|c l IH]; intros [|c' l'] r r' F F' N N' E; cbn in E.
  - auto.
  - subst r. inversion F'; subst. contradiction.
  - subst r'. inversion F; subst. contradiction.
  - injection E as <- E. inversion F; inversion F'; subst. destruct (IH l' r r') as [-> ->]; auto.
Qed.

Definition numeric (c : ascii) : Prop := c = "-"%char \/ exists d, digit c d.
Lemma stops_not_numeric r : stops r -> match r with [] => True | c :: _ => ~ numeric c end.
Proof.
  destruct r as [|c r]; auto. intros S [->|(d & B & E)]; [destruct S as [S|[S|[S|S]]]; discriminate|].
  destruct S as [-> | [-> | [-> | ->]]]; cbn in E; lia.
Qed.
Lemma numeral_numeric m z : numeral m z -> m <> [] /\ Forall numeric m /\ match m with [] => True | c :: _ => exists d, digit c d end.
Proof.
  intros (_ & F & N). split; [destruct N as [->|(c & m' & -> & _)]; discriminate|]. split; [eapply Forall_impl; [|exact F]; intros c D; now right|].
  destruct m; auto. now inversion F.
Qed.
Lemma decimal_numeric l z : decimal l z -> exists c m, l = c :: m /\ numeric c /\ Forall numeric l.
Proof.
  intros [N|(m & -> & N & _)].
  - apply numeral_numeric in N as (E & F & _). destruct l as [|c m]; [contradiction|]. exists c, m. split; auto. split; auto. now inversion F.
  - apply numeral_numeric in N as (E & F & _). exists "-"%char, m. split; auto. split; [now left|]. constructor; auto. now left.
Qed.

(** What the first byte tells. *)
Definition opening (v : data) (c : ascii) : Prop :=
  match v with
  | DNone => c = "<"%char
  | DBool true => c = "t"%char
  | DBool false => c = "f"%char
  | DInt _ => numeric c
  | DStr _ => c = double_quote
  | DVec _ => c = "["%char
  | DMap _ => c = "{"%char
  | _ => False
  end.
Lemma written_opening v l : written v l -> exists c m, l = c :: m /\ opening v c.
Proof.
  intros [| | |z m D|t|vs ls F|kvs ls F]; cbn; try (eexists _, _; split; [reflexivity|reflexivity]).
  apply decimal_numeric in D as (c & m' & -> & N & _). eexists _, _. split; [reflexivity|exact N].
Qed.
Lemma numeric_plain c : numeric c -> c <> "<"%char /\ c <> "t"%char /\ c <> "f"%char /\ c <> double_quote /\ c <> "["%char /\ c <> "{"%char /\ c <> "]"%char /\ c <> "}"%char.
Proof. intros [->|(d & B & E)]; repeat split; try discriminate; intros ->; cbn in E; lia. Qed.
Lemma opening_alike v w c : opening v c -> opening w c ->
  match v, w with
  | DNone, DNone | DInt _, DInt _ | DStr _, DStr _ | DVec _, DVec _ | DMap _, DMap _ => True
  | DBool a, DBool b => a = b
  | _, _ => False
  end.
Proof.
  intros O O'. destruct v as [|[]|z|t|vs|kvs|f|k i d], w as [|[]|z'|t'|vs'|kvs'|f'|k' i' d']; cbn in O, O'; auto; try contradiction; subst; try discriminate;
    match goal with X : numeric _ |- _ => apply numeric_plain in X; destruct X as (? & ? & ? & ? & ? & ? & _); congruence end.
Qed.
Lemma opening_goes_on v c : opening v c -> c <> "]"%char /\ c <> "}"%char.
Proof.
  destruct v as [|[]|z|t|vs|kvs|f|k i d]; cbn; intro O; try contradiction; try (subst c; split; discriminate). apply numeric_plain in O. tauto.
Qed.

Lemma text_vec l : text (DVec l) <-> Forall text l.
Proof. cbn. induction l as [|v l IH]; split; intro G; auto; [constructor; [apply G|apply IH, G]|inversion G; subst; split; auto; now apply IH]. Qed.
Lemma text_map l : text (DMap l) <-> Forall (fun kv => text (fst kv) /\ text (snd kv)) l.
Proof. cbn. induction l as [|[k v] l IH]; split; intro G; auto; [constructor; [split; apply G|apply IH, G]|inversion G as [|? ? [X Y]]; subst; repeat split; auto; now apply IH]. Qed.
Lemma unquoted_vec l : unquoted (DVec l) <-> Forall unquoted l.
Proof. cbn. induction l as [|v l IH]; split; intro G; auto; [constructor; [apply G|apply IH, G]|inversion G; subst; split; auto; now apply IH]. Qed.
Lemma unquoted_map l : unquoted (DMap l) <-> Forall (fun kv => unquoted (fst kv) /\ unquoted (snd kv)) l.
Proof. cbn. induction l as [|[k v] l IH]; split; intro G; auto; [constructor; [split; apply G|apply IH, G]|inversion G as [|? ? [X Y]]; subst; repeat split; auto; now apply IH]. Qed.
Lemma printable_vec l : printable (DVec l) <-> Forall printable l.
Proof. cbn. induction l as [|v l IH]; split; intro G; auto; [constructor; [apply G|apply IH, G]|inversion G; subst; split; auto; now apply IH]. Qed.
Lemma printable_map l : printable (DMap l) <-> Forall (fun kv => printable (fst kv) /\ printable (snd kv)) l.
Proof. cbn. induction l as [|[k v] l IH]; split; intro G; auto; [constructor; [split; apply G|apply IH, G]|inversion G as [|? ? [X Y]]; subst; repeat split; auto; now apply IH]. Qed.

(** Telling elements apart tells lists of them apart. [W x l]: element [x] is written [l]. *)
Section Listed.
Context {A : Type} (W : A -> bytes -> Prop) (close : ascii).
Hypothesis C : close = "]"%char \/ close = "}"%char.
Let tells (x : A) : Prop := forall y l l' r r', W x l -> W y l' -> stops r -> stops r' -> l ++ r = l' ++ r' -> x = y /\ r = r'.
Let begins : Prop := forall x l, W x l -> exists c m, l = c :: m /\ c <> close.
Lemma stops_close r : stops (close :: r). Proof. destruct C as [-> | ->]; cbn; auto. Qed.

Lemma rest_tells : forall xs, Forall tells xs -> forall ys ls ls' r r', Forall2 W xs ls -> Forall2 W ys ls' ->
  concat (map (fun y => lit ", " ++ y) ls) ++ close :: r = concat (map (fun y => lit ", " ++ y) ls') ++ close :: r' -> xs = ys /\ r = r'.
Proof.
  assert (N : ","%char <> close) by (destruct C as [-> | ->]; discriminate).
  induction xs as [|x xs IH]; intros T ys ls ls' r r' F F' E; inversion F as [|? l ? ls1 G1 G2]; inversion F' as [|y l' ys1 ls1' G1' G2']; subst; cbn in E.
  - injection E as ->. auto.
  - congruence.
  - congruence.
  - injection E as E. rewrite <- !app_assoc in E. inversion T as [|? ? T1 T2]; subst. apply (T1 y) in E as [-> E]; auto.
    + apply (IH T2 ys1) in E as [-> ->]; auto.
    + destruct ls1; [apply (stops_close r)|cbn; auto].
    + destruct ls1'; [apply (stops_close r')|cbn; auto].
Qed.
Lemma listed_tells : begins -> forall xs, Forall tells xs -> forall ys ls ls' r r', Forall2 W xs ls -> Forall2 W ys ls' ->
  listed ls ++ close :: r = listed ls' ++ close :: r' -> xs = ys /\ r = r'.
Proof.
  intros B xs T ys ls ls' r r' F F' E. inversion F as [|x l xs1 ls1 G1 G2]; inversion F' as [|y l' ys1 ls1' G1' G2']; subst; cbn [listed] in E.
  - cbn in E. injection E as ->. auto.
  - destruct (B _ _ G1') as (c & m & -> & K). cbn in E. congruence.
  - destruct (B _ _ G1) as (c & m & -> & K). cbn in E. congruence.
  - rewrite <- !app_assoc in E. inversion T as [|? ? T1 T2]; subst. apply (T1 y) in E as [-> E]; auto.
    + destruct (rest_tells xs1 T2 ys1 ls1 ls1' r r' G2 G2' E) as [-> ->]; auto.
    + destruct ls1; [apply (stops_close r)|cbn; auto].
    + destruct ls1'; [apply (stops_close r')|cbn; auto].
Qed.
End Listed.

Definition clean (v : data) : Prop := text v /\ unquoted v.
Definition tells_apart (v : data) : Prop := forall w l l' r r', clean v -> clean w -> written v l -> written w l' -> stops r -> stops r' -> l ++ r = l' ++ r' -> v = w /\ r = r'.

Lemma string_tells t t' r r' : clean (DStr t) -> clean (DStr t') -> (cstr t ++ [double_quote]) ++ r = (cstr t' ++ [double_quote]) ++ r' -> t = t' /\ r = r'.
Proof.
  intros [N Q] [N' Q'] E. cbn in N, Q, N', Q'. rewrite !cstr_nul_free in E by auto. rewrite <- !app_assoc in E.
  apply (split_unique (fun c => c <> double_quote)) in E as [-> E]; [injection E as ->; auto| | |cbn; auto|cbn; auto]; apply Forall_forall; intros c I ->; contradiction.
Qed.

Lemma clean_vec vs : clean (DVec vs) -> Forall clean vs.
Proof.
  intros [T U]. apply text_vec in T. apply unquoted_vec in U. apply Forall_forall. intros v I. split; [eapply Forall_forall in T|eapply Forall_forall in U]; eauto.
Qed.
Lemma clean_map kvs : clean (DMap kvs) -> Forall (fun kv => clean (fst kv) /\ clean (snd kv)) kvs.
Proof.
  intros [T U]. apply text_map in T. apply unquoted_map in U. apply Forall_forall. intros v I.
  eapply Forall_forall in T; [|exact I]. eapply Forall_forall in U; [|exact I]. repeat split; tauto.
Qed.
Lemma forall2_and {A B} (P : A -> Prop) (R : A -> B -> Prop) l m : Forall P l -> Forall2 R l m -> Forall2 (fun a b => P a /\ R a b) l m.
Proof. intros F G. induction G; constructor; inversion F; subst; auto. Qed.

Lemma written_tells : forall v, tells_apart v.
Proof.
  intro v. induction v as [|b|z|t|vs IH|kvs IH|f|k i d] using data_rect'; intros w l l' r r' K K' W W' S S' E;
    destruct (written_opening _ _ W) as (c & m & X & O); destruct (written_opening _ _ W') as (c' & m' & X' & O');
    (assert (c' = c) by (rewrite X, X' in E; cbn in E; congruence)); subst c'; pose proof (opening_alike _ _ _ O O') as Q; destruct w as [|b'|z'|t'|vs'|kvs'|f'|k' i' d']; try contradiction; clear X X' O O'.
  - inversion W; inversion W'; subst. apply app_inv_head in E. auto.
  - subst b'. assert (l = l') by (inversion W; inversion W'; subst; auto; discriminate). subst l'. apply app_inv_head in E. auto.
  - inversion W as [| | |? ? D| | |]; inversion W' as [| | |? ? D'| | |]; subst. destruct (decimal_numeric _ _ D) as (_ & _ & _ & _ & F). destruct (decimal_numeric _ _ D') as (_ & _ & _ & _ & F').
    apply (split_unique numeric) in E as [-> ->]; auto; try (now apply stops_not_numeric). rewrite (decimal_value _ _ _ D D'). auto.
  - inversion W; inversion W'; subst. change ([double_quote] ++ cstr t ++ [double_quote]) with (double_quote :: cstr t ++ [double_quote]) in E.
    change ([double_quote] ++ cstr t' ++ [double_quote]) with (double_quote :: cstr t' ++ [double_quote]) in E.
    cbn [List.app] in E. injection E as E. apply string_tells in E as [-> ->]; auto.
  - inversion W as [| | | | |? ls F|]; inversion W' as [| | | | |? ls' F'|]; subst. change (lit "[") with ["["%char] in E. cbn [List.app] in E. injection E as E. rewrite <- !app_assoc in E.
    apply clean_vec in K, K'.
    apply (listed_tells (fun v l => clean v /\ written v l) "]"%char) with (xs := vs) (ys := vs') in E as [-> ->]; auto using forall2_and.
    + intros x l [_ G]. apply written_opening in G as (c1 & m1 & -> & O). exists c1, m1. split; auto. apply opening_goes_on in O. tauto.
    + apply Forall_forall. intros x I y l l' r1 r2 [C1 G1] [C2 G2] S1 S2 E1. eapply Forall_forall in IH; [|exact I]. eapply IH; eauto.
  - inversion W as [| | | | | |? ls F]; inversion W' as [| | | | | |? ls' F']; subst. change (lit "{") with ["{"%char] in E. cbn [List.app] in E. injection E as E. rewrite <- !app_assoc in E.
    apply clean_map in K, K'.
    set (W1 := fun (kv : data * data) (l : bytes) => exists lk lv, l = lk ++ lit ": " ++ lv /\ (clean (fst kv) /\ clean (snd kv)) /\ written (fst kv) lk /\ written (snd kv) lv).
    assert (M : forall kvs ls, Forall (fun kv => clean (fst kv) /\ clean (snd kv)) kvs -> Forall2 (fun kv l => written (fst kv) (fst l) /\ written (snd kv) (snd l)) kvs ls ->
                Forall2 W1 kvs (map (fun l => fst l ++ lit ": " ++ snd l) ls)).
    { clear. intros kvs ls C F. induction F as [|kv l kvs ls G F IH]; constructor; inversion C; subst; auto. exists (fst l), (snd l). tauto. }
    apply (listed_tells W1 "}"%char) with (xs := kvs) (ys := kvs') in E as [-> ->]; auto.
    + intros x l (lk & lv & -> & _ & G & _). apply written_opening in G as (c1 & m1 & -> & O). exists c1, (m1 ++ lit ": " ++ lv). split; auto. apply opening_goes_on in O. tauto.
    + apply Forall_forall. intros [k v] I [k' v'] l l' r1 r2 (lk & lv & -> & (Ck & Cv) & Gk & Gv) (lk' & lv' & -> & (Ck' & Cv') & Gk' & Gv') S1 S2 E1. cbn [fst snd] in *.
      eapply Forall_forall in IH; [|exact I]. destruct IH as [IHk IHv]. cbn [fst snd] in *. rewrite <- !app_assoc in E1.
      apply (IHk k' lk lk' (lit ": " ++ lv ++ r1) (lit ": " ++ lv' ++ r2) Ck Ck' Gk Gk') in E1 as [-> E1]; [|cbn; auto|cbn; auto]. cbn in E1. injection E1 as E1. apply (IHv v' lv lv' r1 r2 Cv Cv' Gv Gv' S1 S2) in E1 as [-> ->]. auto.
Qed.

Lemma written_once v w l : text v -> text w -> unquoted v -> unquoted w -> written v l -> written w l -> v = w.
Proof. intros T T' U U' W W'. apply (written_tells v w l l [] []); try split; cbn; auto. Qed.

(** ** Printing *)

Section Print.
Context {H : Type}.
Variable cf : conf H.

Lemma join_listed : forall l, join l = listed l.
Proof.
  induction l as [|x [|y l] IH]; auto; [cbn; now rewrite app_nil_r|]. change (join (x :: y :: l)) with (x ++ lit ", " ++ join (y :: l)). rewrite IH. cbn [listed map concat].
  now rewrite <- app_assoc.
Qed.
Lemma read_upto_ok (s : st H) b k u : nth_error (bufs s) b = Some (Some u) -> k <= length u -> read_upto b k s = Ret (cstr (firstn k u)) s.
Proof. intros B L. unfold read_upto. rewrite B. apply Nat.leb_le in L. rewrite L. reflexivity. Qed.

Lemma mapM_written {A B} (f : A -> M H bytes) (R : B -> A -> Prop) (W : B -> bytes -> Prop) s : forall vs es, Forall2 R vs es ->
  (forall v e, In v vs -> R v e -> exists l, f e s = Ret l s /\ W v l) -> exists ls, mapM f es s = Ret ls s /\ Forall2 W vs ls.
Proof.
  induction 1 as [|v e vs es G F IH]; intro Q; [exists []; split; [reflexivity|constructor]|].
  destruct (Q v e (or_introl eq_refl) G) as (l & E & Wl). destruct IH as (ls & E' & Wls); [intros; apply Q; auto; now right|].
  exists (l :: ls). split; [|now constructor]. cbn [mapM]. unfold mbind. rewrite E, E'. reflexivity.
Qed.

Lemma repr_written : forall v n a s, printable v -> depth v < n -> holds s v a -> exists l, @repr H n true a s = Ret l s /\ written v l.
Proof.
  intro v. induction v as [|b|z|t|vs IH|kvs IH|f|k i d] using data_rect'; intros [|n] a s P D V; try lia; try contradiction; cbn [repr].
  - destruct V as (c & C & V). unfold mbind. rewrite (get_cell_ok _ _ _ C), V. eexists. split; [reflexivity|constructor].
  - destruct V as (c & C & V). unfold mbind. rewrite (get_cell_ok _ _ _ C), V. eexists. split; [reflexivity|destruct b; constructor].
  - destruct V as (c & C & V). unfold mbind. rewrite (get_cell_ok _ _ _ C), V. eexists. split; [reflexivity|constructor; apply dec_decimal].
  - destruct V as (c & C & b & k & u & V & B & L & ->). unfold mbind. rewrite (get_cell_ok _ _ _ C), V, (read_upto_ok _ _ _ _ B L). eexists. split; [reflexivity|constructor].
  - apply holds_vec in V as (c & es & C & V & F). unfold mbind at 1. rewrite (get_cell_ok _ _ _ C), V. apply printable_vec in P.
    destruct (mapM_written (repr n true) (holds s) written s vs es F) as (ls & E & W).
    { intros v e I G. eapply Forall_forall in IH; [|exact I]. eapply Forall_forall in P; [|exact I]. apply IH; auto. apply depth_vec in I. lia. }
    unfold mbind. rewrite E, join_listed. eexists. split; [reflexivity|]. now constructor.
  - apply holds_map in V as (c & es & C & V & F). unfold mbind at 1. rewrite (get_cell_ok _ _ _ C), V. apply printable_map in P.
    destruct (mapM_written (fun kv => k <- repr n true (fst kv) ;; v <- repr n true (snd kv) ;; ret (k ++ lit ": " ++ v))%fl (holds2 s)
      (fun kv l => exists lk lv, l = lk ++ lit ": " ++ lv /\ written (fst kv) lk /\ written (snd kv) lv) s kvs es F) as (ls & E & W).
    { intros kv e I [G G']. eapply Forall_forall in IH; [|exact I]. destruct IH as [IHk IHv]. eapply Forall_forall in P; [|exact I]. destruct P as [Pk Pv]. apply depth_map in I as [Dk Dv].
      destruct (IHk n (fst e) s Pk ltac:(lia) G) as (lk & Ek & Wk). destruct (IHv n (snd e) s Pv ltac:(lia) G') as (lv & Ev & Wv).
      unfold mbind. rewrite Ek, Ev. eexists. split; [reflexivity|]. exists lk, lv. auto. }
    rewrite (bind_step _ _ _ _ _ E), join_listed. eexists. split; [reflexivity|].
    assert (X : exists ps, ls = map (fun l => fst l ++ lit ": " ++ snd l) ps /\ Forall2 (fun kv l => written (fst kv) (fst l) /\ written (snd kv) (snd l)) kvs ps).
    { clear -W. induction W as [|kv l kvs ls (lk & lv & -> & Wk & Wv) W (ps & -> & F)]; [exists []; split; auto|]. exists ((lk, lv) :: ps). split; auto. }
    destruct X as (ps & -> & X). now constructor.
Qed.
Lemma repr_line v n a s : printable v -> depth v < n -> holds s v a -> exists l, @repr H n false a s = Ret l s /\ line v l.
Proof.
  intros P D V. destruct (repr_written v n a s P D V) as (l & E & W). destruct n as [|n]; [lia|].
  assert (K : (forall t, v <> DStr t) \/ exists t, v = DStr t) by (destruct v; try (left; discriminate); right; eauto). destruct K as [K|(t & ->)].
  - exists l. split; [|now constructor]. destruct (holds_cell _ _ _ V) as (c & C). revert E. cbn [repr]. rewrite !(bind_step _ _ _ _ _ (get_cell_ok _ _ _ C)).
    destruct (c_val c) as [| | |b k| | |f|k i d] eqn:Ec; auto. exfalso. destruct v as [|b'|z|t|vs|kvs|f|k' i d]; try contradiction;
      try (destruct V as (c' & C' & V); rewrite C in C'; injection C' as <-; rewrite Ec in V; discriminate).
    + now apply (K t).
    + apply holds_vec in V as (c' & es & C' & V & _). congruence.
    + apply holds_map in V as (c' & es & C' & V & _). congruence.
  - exists (cstr t). split; [|constructor]. destruct V as (c & C & b & k & u & V & B & L & ->). cbn [repr]. unfold mbind. rewrite (get_cell_ok _ _ _ C), V, (read_upto_ok _ _ _ _ B L). reflexivity.
Qed.

Lemma print_evals n e s a s1 : cur_rv s = None -> evals cf n e s a s1 ->
  r_stmt (interp cf (S n)) (SPrint e) s = (t <- repr n false a ;; modify (fun s => set_prints (prints s ++ [t]) s) ;; decref cf n a)%fl s1.
Proof.
  intros R E. rewrite stmt_S. cbn [stmt_]. rewrite (bind_step _ _ _ _ _ (returning_no _ R)). unfold do_print. rewrite (bind_step _ _ _ _ _ (FlExprProofs.value_evals cf _ _ _ _ _ E)).
  now rewrite interp_fuel.
Qed.

(** Dropping a reference to a value that is neither a function nor an instance. *)
Lemma decref_printable n v a s : printable v -> holds s v a -> exists s', decref cf (S n) a s = Ret tt s' /\ still s s'.
Proof.
  intros P V. destruct (holds_cell _ _ _ V) as (c & C). cbn [decref]. unfold mbind at 1. rewrite (get_cell_ok _ _ _ C). cbn -[down].
  assert (L : a < length (cells s)) by (apply nth_error_Some; congruence). set (c1 := Cell (c_name c) (down (c_cnt c)) (c_owner c) (c_val c)).
  assert (C1 : nth_error (upd a c1 (cells s)) a = Some c1) by (now apply upd_same). unfold mbind, put_cell, modify.
  destruct (0 <? down (c_cnt c))%Z; [eexists; split; [reflexivity|repeat split]|].
  unfold val_free, mbind, get_cell. cbn [cells set_cells]. rewrite C1. cbn [c1 c_val].
  destruct (c_val c) as [| | |b k| | |f|k i d] eqn:Ec; try (eexists; split; [reflexivity|repeat split]).
  - destruct v as [|b'|z|t|vs|kvs|f|k' i d]; try contradiction; try (destruct V as (c' & C' & V); rewrite C in C'; injection C' as <-; rewrite Ec in V; discriminate);
      try (destruct V as (c' & C' & es & V & _); rewrite C in C'; injection C' as <-; rewrite Ec in V; discriminate).
    destruct V as (c' & C' & b' & k' & u & V & B & L' & _). assert (c' = c) by congruence. subst c'. rewrite Ec in V. injection V as <- <-.
    unfold free_buf. cbn [bufs set_cells]. rewrite B. eexists. split; [reflexivity|repeat split].
  - exfalso. destruct v as [|b'|z|t|vs|kvs|f'|k' i d]; try contradiction; try (destruct V as (c' & C' & V); rewrite C in C'; injection C' as <-; rewrite Ec in V; discriminate);
      try (destruct V as (c' & C' & es & V & _); rewrite C in C'; injection C' as <-; rewrite Ec in V; discriminate);
      destruct V as (c' & C' & b' & k' & u & V & _); congruence.
  - exfalso. destruct v as [|b'|z|t|vs|kvs|f'|k' i' d']; try contradiction; try (destruct V as (c' & C' & V); rewrite C in C'; injection C' as <-; rewrite Ec in V; discriminate);
      try (destruct V as (c' & C' & es & V & _); rewrite C in C'; injection C' as <-; rewrite Ec in V; discriminate);
      destruct V as (c' & C' & b' & k' & u & V & _); congruence.
Qed.

Lemma holds_prints v a p (s : st H) : holds s v a -> holds (set_prints p s) v a.
Proof.
  revert a. induction v as [|b|z|t|vs IH|kvs IH|f|k i d] using data_rect'; intros a V; auto.
  - apply holds_vec in V as (c & es & C & V & F). apply holds_vec. exists c, es. split; [exact C|]. split; [exact V|].
    clear V. induction F as [|v e vs es G F IHF]; constructor; inversion IH; subst; auto.
  - apply holds_map in V as (c & es & C & V & F). apply holds_map. exists c, es. split; [exact C|]. split; [exact V|].
    clear V. induction F as [|v e vs es [G G'] F IHF]; constructor; inversion IH as [|? ? [X Y] Z]; subst; auto. split; auto.
Qed.

Lemma print_line n e s a s1 v : cur_rv s = None -> evals cf n e s a s1 -> holds s1 v a -> printable v -> depth v < n ->
  exists l s', line v l /\ executes cf (S n) (SPrint e) s s' /\ prints_only [l] s1 s'.
Proof.
  intros R E V P D. destruct (repr_line v n a s1 P D V) as (l & El & W). destruct n as [|n]; [lia|].
  destruct (decref_printable n v a (set_prints (prints s1 ++ [l]) s1) P (holds_prints _ _ _ _ V)) as (s' & Ed & Sp & Se & Sc & Sv).
  exists l, s'. split; auto. split; [|repeat split; auto]. unfold executes. rewrite (print_evals _ _ _ _ _ R E). unfold mbind, modify. rewrite El. exact Ed.
Qed.

Lemma print_fails n e s t : cur_rv s = None -> outcome cf n e s = Fail t -> r_stmt (interp cf (S n)) (SPrint e) s = Fail t.
Proof.
  intros R E. rewrite stmt_S. cbn [stmt_]. rewrite (bind_step _ _ _ _ _ (returning_no _ R)). unfold do_print, value, both, mbind. unfold outcome in E. now rewrite E.
Qed.

Lemma read_called (s : st H) a x c : called s a x -> nth_error (cells s) a = Some c -> read_name (c_name c) s = Ret x s /\ (x <> [] -> match c_name c with NNone | NKey _ [] | NOwn [] => False | _ => True end).
Proof.
  intros (c' & C' & N) C. assert (c' = c) by congruence. subst c'. destruct N as [->|(i & sc & -> & Sc & A)]; cbn [read_name].
  - split; auto. destruct x; auto.
  - rewrite Sc, A. split; auto. destruct x; auto.
Qed.

Hypothesis F : releases_own cf.
Lemma print_text n e s a s1 l : cur_rv s = None -> evals cf n e s a s1 -> repr n false a s1 = Ret l s1 ->
  (forall s', executes cf (S n) (SPrint e) s s' -> prints_only [l] s1 s') /\ (forall t, r_stmt (interp cf (S n)) (SPrint e) s <> Fail t).
Proof.
  intros R E T. unfold executes. rewrite (print_evals _ _ _ _ _ R E). unfold mbind, modify. rewrite T. split.
  - intros s' D. apply (calm_decref cf F) in D as (Sp & Se & Sc & Sv). repeat split; auto.
  - intros t D. now apply (never_decref cf F) in D.
Qed.
Lemma print_function n e s a s1 f x : cur_rv s = None -> evals cf (S n) e s a s1 -> payload_at s1 a (PFn f) -> called s1 a x -> x <> [] ->
  (forall s', executes cf (S (S n)) (SPrint e) s s' -> prints_only [lit "<" ++ type_name (DFn f) ++ lit " " ++ x ++ lit ">"] s1 s') /\ (forall t, r_stmt (interp cf (S (S n))) (SPrint e) s <> Fail t).
Proof.
  intros R E (c & C & V) N X. eapply print_text; eauto. destruct (read_called _ _ _ _ N C) as [Rd K]. specialize (K X). cbn [repr]. unfold mbind at 1. rewrite (get_cell_ok _ _ _ C), V.
  destruct (c_name c) as [|i [|b y]|[|b y]]; try contradiction; unfold mbind; rewrite Rd; unfold type_str, type_name; destruct (f_kind f); reflexivity.
Qed.
Lemma print_anonymous n e s a s1 f c : cur_rv s = None -> evals cf (S n) e s a s1 -> nth_error (cells s1) a = Some c -> c_val c = PFn f ->
  c_name c = NNone \/ called s1 a [] ->
  (forall s', executes cf (S (S n)) (SPrint e) s s' -> prints_only [lit "<anonymous function>"] s1 s') /\ (forall t, r_stmt (interp cf (S (S n))) (SPrint e) s <> Fail t).
Proof.
  intros R E C V N. eapply print_text; eauto. cbn [repr]. unfold mbind at 1. rewrite (get_cell_ok _ _ _ C), V.
  destruct N as [->|(c' & C' & [N|(i & sc & N & _)])]; [reflexivity|..]; rewrite C in C'; injection C' as <-; rewrite N; reflexivity.
Qed.
Lemma print_instance n e s a s1 k i d x : cur_rv s = None -> evals cf (S n) e s a s1 -> payload_at s1 a (PInst k i d) -> called s1 k x ->
  (forall s', executes cf (S (S n)) (SPrint e) s s' -> prints_only [lit "<instance of " ++ x ++ lit ">"] s1 s') /\ (forall t, r_stmt (interp cf (S (S n))) (SPrint e) s <> Fail t).
Proof.
  intros R E (c & C & V) N. eapply print_text; eauto. cbn [repr]. unfold mbind at 1. rewrite (get_cell_ok _ _ _ C), V. destruct N as (ck & Ck & N).
  unfold mbind. rewrite (get_cell_ok _ _ _ Ck). destruct (read_called s1 k x ck) as [-> _]; auto. now exists ck.
Qed.
End Print.

Section Loops.
Context {H : Type}.
Variable cf : conf H.
Lemma loop_written (s : st H) a l : payload_at s a (PVec l) -> In a l -> (forall b, In b l -> b = a) -> forall n i, @repr H n i a s = NoFuel.
Proof.
  intros (c & C & V) I U. induction n as [|n IH]; intro i; [reflexivity|]. cbn [repr]. unfold mbind. rewrite (get_cell_ok _ _ _ C), V. destruct l as [|b l]; [contradiction|].
  cbn [mapM]. unfold mbind. rewrite (U b) by now left. now rewrite IH.
Qed.
Lemma loop_inside (s : st H) b l a l' : payload_at s b (PVec (b :: l)) -> payload_at s a (PVec (b :: l')) -> forall n i, @repr H n i a s = NoFuel.
Proof.
  intros (c & C & V) (c' & C' & V'). assert (L : forall n i, @repr H n i b s = NoFuel).
  { induction n as [|n IH]; intro i; [reflexivity|]. cbn [repr]. unfold mbind. rewrite (get_cell_ok _ _ _ C), V. cbn [mapM]. unfold mbind. now rewrite IH. }
  intros [|n] i; [reflexivity|]. cbn [repr]. unfold mbind. rewrite (get_cell_ok _ _ _ C'), V'. cbn [mapM]. unfold mbind. now rewrite L.
Qed.
Lemma print_loops n e s t a b l l' : cur_rv s = None -> evals cf n e s a t -> payload_at t b (PVec (b :: l)) -> payload_at t a (PVec (b :: l')) ->
  forall m, r_stmt (interp cf m) (SPrint e) s = NoFuel.
Proof.
  intros R (x & E) B A m. assert (Q : forall m', n <= m' -> r_stmt (interp cf (S m')) (SPrint e) s = NoFuel).
  { intros m' L. assert (E' : evals cf m' e s a t).
    { exists x. destruct (interp_below cf n m' L) as (_ & G & _). destruct (G Slot e s) as [X|X]; congruence. }
    rewrite (print_evals cf _ _ _ _ _ R E'). unfold mbind. now rewrite (loop_inside _ _ _ _ _ B A). }
  destruct (interp_below cf m (S (Nat.max m n)) ltac:(lia)) as (_ & _ & _ & _ & G & _). destruct (G (SPrint e) s) as [X|X]; auto.
  rewrite <- X. apply Q. lia.
Qed.
Lemma run_loops n paths h ss s x : run cf n paths h ss = Ret tt s -> (forall m, r_stmt (interp cf m) x s = NoFuel) -> forall m, run cf m paths h (ss ++ [x]) = NoFuel.
Proof.
  unfold run. destruct (create paths h) as [u s0|s0| |u|] eqn:E; try discriminate. intros R L m. unfold exec in *.
  assert (Q : forall k ys s1, (forall y, below (r_stmt (interp cf n) y) (r_stmt (interp cf k) y) \/ below (r_stmt (interp cf k) y) (r_stmt (interp cf n) y)) ->
    iterM (r_stmt (interp cf n)) ys s1 = Ret tt s -> iterM (r_stmt (interp cf k)) (ys ++ [x]) s1 = NoFuel).
  { intros k. induction ys as [|y ys IH]; intros s1 B Y; cbn [List.app iterM] in *; unfold mbind in *.
    - injection Y as ->. now rewrite L.
    - destruct (r_stmt (interp cf n) y s1) as [[] s2|s2| |v|] eqn:Ey; try discriminate. destruct (B y) as [G|G]; destruct (G s1) as [X|X]; rewrite ?X in *; try congruence; try rewrite Ey; auto.
    }
  apply Q with (s1 := s0); auto. intro y. destruct (Nat.le_ge_cases n m) as [K|K]; [left|right]; apply interp_below; auto.
Qed.
End Loops.

(** ** Checking *)

Section Assert.
Context {H : Type}.
Variable cf : conf H.

Lemma type_str_holds (s : st H) v a c : holds s v a -> nth_error (cells s) a = Some c -> type_str (c_val c) = type_name v.
Proof.
  intros V C. destruct v as [|b|z|t|vs|kvs|f|k i d]; try (destruct V as (c' & C' & V); assert (c' = c) by congruence; subst c'; rewrite V; unfold type_str, type_name; try destruct (f_kind f); reflexivity).
  - destruct V as (c' & C' & b & k & u & V & _). assert (c' = c) by congruence. subst c'. now rewrite V.
  - apply holds_vec in V as (c' & es & C' & V & _). assert (c' = c) by congruence. subst c'. now rewrite V.
  - apply holds_map in V as (c' & es & C' & V & _). assert (c' = c) by congruence. subst c'. now rewrite V.
Qed.
Lemma assert_evals n e text s a s1 c : cur_rv s = None -> evals cf n e s a s1 -> nth_error (cells s1) a = Some c ->
  r_stmt (interp cf (S n)) (SAssert e text) s =
  match c_val c with
  | PBool true => decref cf n a s1
  | PBool false => reports cf (lit "assertion test " ++ quoted text ++ lit " failed") s1
  | p => reports cf (lit "expected boolean value for test, got " ++ type_str p) s1
  end.
Proof.
  intros R E C. rewrite stmt_S. cbn [stmt_]. rewrite (bind_step _ _ _ _ _ (returning_no _ R)). unfold do_assert. rewrite (bind_step _ _ _ _ _ (FlExprProofs.value_evals cf _ _ _ _ _ E)).
  rewrite (bind_step _ _ _ _ _ (get_cell_ok _ _ _ C)), interp_fuel. destruct (c_val c) as [|[]| | | | | |]; reflexivity.
Qed.
Lemma assert_true n e text s a s1 : cur_rv s = None -> evals cf (S n) e s a s1 -> holds s1 (DBool true) a -> exists s', executes cf (S (S n)) (SAssert e text) s s' /\ still s1 s'.
Proof.
  intros R E V. destruct (decref_printable cf n (DBool true) a s1 Logic.I V) as (s' & D & S). exists s'. split; auto. destruct V as (c & C & V).
  unfold executes. rewrite (assert_evals _ _ _ _ _ _ _ R E C), V. exact D.
Qed.
Lemma assert_false n e text s a s1 : cur_rv s = None -> evals cf n e s a s1 -> holds s1 (DBool false) a -> nul_free text ->
  r_stmt (interp cf (S n)) (SAssert e text) s = reports cf (lit "assertion test '" ++ text ++ lit "' failed") s1.
Proof.
  intros R E (c & C & V) N. rewrite (assert_evals _ _ _ _ _ _ _ R E C), V. f_equal. unfold quoted. rewrite cstr_nul_free by auto.
  change (lit "assertion test '") with (lit "assertion test " ++ lit "'"). change (lit "' failed") with (lit "'" ++ lit " failed"). now rewrite <- !app_assoc.
Qed.
Lemma assert_other n e text s a s1 v : cur_rv s = None -> evals cf n e s a s1 -> holds s1 v a -> (forall b, v <> DBool b) ->
  r_stmt (interp cf (S n)) (SAssert e text) s = reports cf (lit "expected boolean value for test, got " ++ type_name v) s1.
Proof.
  intros R E V N. destruct (holds_cell _ _ _ V) as (c & C). rewrite (assert_evals _ _ _ _ _ _ _ R E C). rewrite <- (type_str_holds _ _ _ _ V C).
  destruct (c_val c) as [|b| | | | | |] eqn:Ec; try reflexivity. exfalso.
  destruct v as [|b'|z|t|vs|kvs|f|k i d]; try (destruct V as (c' & C' & V); congruence).
  - now apply (N b').
  - destruct V as (c' & C' & b1 & k & u & V & _). congruence.
  - apply holds_vec in V as (c' & es & C' & V & _). congruence.
  - apply holds_map in V as (c' & es & C' & V & _). congruence.
Qed.
Lemma assert_fails n e text s t : cur_rv s = None -> outcome cf n e s = Fail t -> r_stmt (interp cf (S n)) (SAssert e text) s = Fail t.
Proof.
  intros R E. rewrite stmt_S. cbn [stmt_]. rewrite (bind_step _ _ _ _ _ (returning_no _ R)). unfold do_assert, value, both, mbind. unfold outcome in E. now rewrite E.
Qed.
Lemma error_not_ret A msg (s : st H) (a : A) s' : reports cf msg s <> Ret a s'.
Proof. unfold reports, raise. cbv zeta. destruct (Nat.leb _ _); [discriminate|]. destruct (err s); destruct (Nat.leb _ _); discriminate. Qed.
Lemma assert_goes_on (F : releases_own cf) n e text s s' : cur_rv s = None -> executes cf (S n) (SAssert e text) s s' ->
  exists a s1, evals cf n e s a s1 /\ holds s1 (DBool true) a /\ still s1 s'.
Proof.
  intros R E. pose proof E as E0. unfold executes in E. rewrite stmt_S in E. cbn [stmt_] in E. rewrite (bind_step _ _ _ _ _ (returning_no _ R)) in E. unfold do_assert in E.
  apply bind_ret_inv in E as (a & s1 & E1 & E). apply FlExprProofs.value_inv in E1. apply bind_ret_inv in E as (c & s2 & E2 & E).
  unfold get_cell in E2. destruct (nth_error (cells s1) a) as [c0|] eqn:C; [|discriminate]. injection E2 as -> <-. exists a, s1. split; auto.
  destruct (c_val c) as [|[]| | | | | |] eqn:V; try (now apply error_not_ret in E). split; [exists c; auto|]. rewrite interp_fuel in E. now apply (calm_decref cf F) in E.
Qed.

(** What comes after a statement that can't be executed isn't. *)
Lemma stops_there n before x after s s1 t : executes_each cf n before s s1 -> r_stmt (interp cf n) x s1 = Fail t -> exec cf n (before ++ x :: after) s = Fail t.
Proof.
  intros E X. unfold exec. induction E as [s|y ys s s' s'' Y E IH]; cbn [List.app iterM]; unfold mbind.
  - now rewrite X.
  - unfold executes in Y. rewrite Y. now apply IH.
Qed.
End Assert.
