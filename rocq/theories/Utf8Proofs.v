(** * Reading characters comes to the same as reading bytes (C73). *)

From Coq Require Import NArith ZArith Arith Ascii String Lia Bool List.
From Verif Require Import Base FlAst FlTables FlParse FlRead SpecLex LexProofs ParseProofs SpecSyntax SyntaxProofs Utf8 SpecUtf8.
Import ListNotations.
Local Open Scope nat_scope.

(** ** The tests *)

(** No test tells characters outside ASCII apart. *)
Fixpoint small (c : cond) : bool :=
  match c with
  | CEof => true
  | CEq n | CNe n => (n <? 128)%N
  | CIn _ hi => (hi <? 128)%N
  | COr a b | CAnd a b => small a && small b
  end.
Definition small_state (k : N) : bool := forallb (fun cm => small (fst cm)) (snd (lex_state k)).
Lemma small_check : forallb small_state all_states = true.
Proof. vm_compute. reflexivity. Qed.
Lemma states_small k : small_state k = true.
Proof. destruct (every_state _ small_check k) as [[E _]|E]; [|exact E]. unfold small_state. rewrite E. reflexivity. Qed.

Definition foreign (z : Z) : Prop := (z = -1 \/ 128 <= z)%Z.
Lemma holds_ascii c eof n : holds_char c eof (Z.of_N n) = holds c eof n.
Proof.
  induction c as [|m|m|lo hi|a IHa b IHb|a IHa b IHb]; cbn [holds_char holds]; try congruence.
  - destruct (N.eqb_spec n m), (Z.eqb_spec (Z.of_N n) (Z.of_N m)); try reflexivity; lia.
  - destruct (N.eqb_spec n m), (Z.eqb_spec (Z.of_N n) (Z.of_N m)); try reflexivity; lia.
  - destruct (N.leb_spec lo n), (Z.leb_spec (Z.of_N lo) (Z.of_N n)); try lia; destruct (N.leb_spec n hi), (Z.leb_spec (Z.of_N n) (Z.of_N hi)); try reflexivity; lia.
Qed.
Lemma holds_foreign c eof z n : small c = true -> foreign z -> (128 <= n)%N -> holds_char c eof z = holds c eof n.
Proof.
  intros S F L. induction c as [|m|m|lo hi|a IHa b IHb|a IHa b IHb]; cbn [holds_char holds small] in *.
  - reflexivity.
  - apply N.ltb_lt in S. destruct (N.eqb_spec n m), (Z.eqb_spec z (Z.of_N m)); try reflexivity; destruct F; lia.
  - apply N.ltb_lt in S. destruct (N.eqb_spec n m), (Z.eqb_spec z (Z.of_N m)); try reflexivity; destruct F; lia.
  - apply N.ltb_lt in S. destruct (N.leb_spec lo n), (N.leb_spec n hi), (Z.leb_spec (Z.of_N lo) z), (Z.leb_spec z (Z.of_N hi)); try reflexivity; destruct F; lia.
  - apply andb_true_iff in S as (A & B). now rewrite IHa, IHb.
  - apply andb_true_iff in S as (A & B). now rewrite IHa, IHb.
Qed.
Lemma pick_ascii l eof n : pick_char l eof (Z.of_N n) = pick l eof n.
Proof. induction l as [|[c m] l IH]; cbn [pick_char pick]; [reflexivity|]. rewrite holds_ascii, IH. reflexivity. Qed.
Lemma pick_foreign l eof z n : forallb (fun cm => small (fst cm)) l = true -> foreign z -> (128 <= n)%N -> pick_char l eof z = pick l eof n.
Proof.
  intros S F L. induction l as [|[c m] l IH]; cbn [pick_char pick forallb fst] in *; [reflexivity|]. apply andb_true_iff in S as (A & B). rewrite (holds_foreign c eof z n A F L), (IH B). reflexivity.
Qed.

(** A state that takes a character outside ASCII goes to one that takes all of them and stays. *)
Definition foreign_loops (k : N) : bool :=
  match pick (snd (lex_state k)) false 128 with
  | Some (Advance k') => match pick (snd (lex_state k')) false 128 with Some (Advance k'') => (k'' =? k')%N | _ => false end
  | Some (Skip _) => false
  | None => true
  end.
Lemma loops_check : forallb foreign_loops all_states = true.
Proof. vm_compute. reflexivity. Qed.
Lemma states_loop k : foreign_loops k = true.
Proof. destruct (every_state _ loops_check k) as [[E _]|E]; [|exact E]. unfold foreign_loops. rewrite E. reflexivity. Qed.
Lemma pick_high l n : forallb (fun cm => small (fst cm)) l = true -> (128 <= n)%N -> pick l false n = pick l false 128.
Proof. intros S L. rewrite <- (pick_foreign l false 128 n S); [|right; lia|exact L]. apply (pick_foreign l false 128 128 S); [right; lia|lia]. Qed.

(** ** The bytes of characters *)
Definition high (b : ascii) : Prop := (128 <= N_of_ascii b)%N.
Lemma last_trail_cases c n t z m : last_trail c n t = (z, m) -> (c >= 2)%N ->
  (z = -1)%Z /\ m = 1 \/ exists b r, t = b :: r /\ high b /\ m = S n /\ (128 <= z)%Z.
Proof.
  intros H L. destruct t as [|b r]; cbn [last_trail] in H; [injection H as <- <-; now left|]. destruct (trail (N_of_ascii b)) eqn:T; [|injection H as <- <-; now left].
  assert (Ez : z = Z.of_N (64 * c + (N_of_ascii b - 128))) by congruence. assert (Em : m = S n) by congruence. clear H.
  unfold trail in T. apply andb_true_iff in T as (T & _). apply N.leb_le in T. right. exists b, r. repeat split; [exact T|exact Em|lia].
Qed.
Lemma next_char_high b t z n : high b -> next_char (b :: t) = (z, n) ->
  foreign z /\ 1 <= n /\ exists u r, b :: t = u ++ r /\ length u = n /\ Forall high u.
Proof.
  intros Hb. unfold next_char. replace (N_of_ascii b <? 128)%N with false by (symmetry; apply N.ltb_ge; exact Hb).
  assert (One : forall z n, ((z, n) = ill_formed) -> foreign z /\ 1 <= n /\ exists u r, b :: t = u ++ r /\ length u = n /\ Forall high u).
  { intros z0 n0 Q. injection Q as -> ->. split; [now left|]. split; [lia|]. exists [b], t. repeat constructor. exact Hb. }
  destruct t as [|b1 t2]; [intros H; apply One; congruence|]. set (c := N_of_ascii b) in *. set (x := N_of_ascii b1) in *.
  destruct (224 <=? c)%N eqn:E2; [apply N.leb_le in E2|].
  - assert (Hx : forall l i, N.testbit (nth (N.to_nat i) l 0%N) (x / 32) = true -> forallb (fun v => negb (N.testbit v 0 || N.testbit v 1 || N.testbit v 2 || N.testbit v 3)) l = true -> high b1).
    { intros l i B F. destruct (N.leb_spec 128 x) as [|Lx]; [assumption|exfalso]. destruct (nth_in_or_default (N.to_nat i) l 0%N) as [I|D]; [|rewrite D, N.bits_0 in B; discriminate].
      rewrite forallb_forall in F. specialize (F _ I). apply negb_true_iff in F. rewrite !orb_false_iff in F. destruct F as (((F0 & F1) & F2) & F3).
      assert (Q : (x / 32 < 4)%N) by (apply N.div_lt_upper_bound; lia). set (q := (x / 32)%N) in *. clearbody q. assert (q = 0 \/ q = 1 \/ q = 2 \/ q = 3)%N as [R|[R|[R|R]]] by (clear - Q; lia); rewrite R in B; congruence. }
    destruct (c <? 240)%N eqn:E3.
    + destruct (N.testbit _ _) eqn:B; [|intros H; apply One; congruence]. pose proof (Hx _ _ B ltac:(vm_compute; reflexivity)) as H1. apply N.ltb_lt in E3.
      intros H. destruct (last_trail_cases _ _ _ _ _ H) as [(-> & ->)|(b2 & r & -> & H2 & -> & Z)]; [|apply One; reflexivity|].
      * (* no overlong forms *)
        destruct (N.eq_dec (c mod 16) 0) as [C0|C0]; [|clear - C0; generalize dependent (c mod 16)%N; generalize (x mod 64)%N; intros; lia]. rewrite C0 in B. change (N.testbit 32 (x / 32) = true) in B. rewrite C0.
        assert (X5 : (x / 32 = 5)%N). { destruct (N.eq_dec (x / 32) 5) as [|D]; [assumption|]. change 32%N with (2 ^ 5)%N in B at 1. rewrite N.pow2_bits_false in B by congruence. discriminate. }
        pose proof (N.div_mod x 32 ltac:(lia)) as Dx. rewrite X5 in Dx. pose proof (N.mod_lt x 32 ltac:(lia)) as Lx. set (y := (x mod 32)%N) in *. clearbody y. rewrite <- (N.mod_unique x 64 2 (x - 128)) by lia. lia.
      * split; [right; exact Z|]. split; [lia|]. exists [b; b1; b2], r. repeat constructor; assumption.
    + apply N.ltb_ge in E3. destruct (_ && _) eqn:B; [|intros H; apply One; congruence]. apply andb_true_iff in B as (B4 & B).
      assert (H1 : high b1). { destruct (N.leb_spec 128 x) as [|L]; [assumption|exfalso]. assert (Q : (x / 16 < 8)%N) by (apply N.div_lt_upper_bound; lia).
        set (q := (x / 16)%N) in *. clearbody q. assert (q = 0 \/ q = 1 \/ q = 2 \/ q = 3 \/ q = 4 \/ q = 5 \/ q = 6 \/ q = 7)%N as R by (clear - Q; lia).
        repeat (destruct R as [R|R]; [rewrite R in B; change (N.testbit 0 (c - 240) = true) in B; rewrite N.bits_0 in B; discriminate|]). rewrite R in B. change (N.testbit 0 (c - 240) = true) in B. rewrite N.bits_0 in B. discriminate. }
      destruct t2 as [|b2 t3]; [intros H; apply One; congruence|]. destruct (trail (N_of_ascii b2)) eqn:T2; [|intros H; apply One; congruence].
      assert (H2 : high b2) by (unfold trail in T2; apply andb_true_iff in T2 as (T2 & _); apply N.leb_le; exact T2).
      intros H. destruct (last_trail_cases _ _ _ _ _ H) as [(-> & ->)|(b3 & r & -> & H3 & -> & Z)]; [|apply One; reflexivity|].
      * destruct (N.eq_dec (c - 240) 0) as [C0|C0]; [|clear - C0; generalize dependent (c - 240)%N; generalize (x mod 64)%N; intros; lia]. rewrite C0 in *. 
        assert (Q : (x mod 64 >= 16)%N).
        { pose proof (N_ascii_bounded b1) as Bx. fold x in Bx. unfold high in H1. fold x in H1.
          assert (Q8 : (8 <= x / 16)%N) by (apply N.div_le_lower_bound; lia). assert (Q16 : (x / 16 < 16)%N) by (apply N.div_lt_upper_bound; lia).
          pose proof (N.div_mod x 16 ltac:(lia)) as Dx. pose proof (N.mod_lt x 16 ltac:(lia)) as Lx. set (y := (x mod 16)%N) in *. set (q := (x / 16)%N) in *. clearbody y q.
          assert (q = 8 \/ q = 12 \/ q = 13 \/ q = 14 \/ q = 15 \/ q = 9 \/ q = 10 \/ q = 11)%N as R by (clear - Q8 Q16; lia).
          do 5 (destruct R as [R|R]; [rewrite R in B; discriminate B|]). rewrite <- (N.mod_unique x 64 2 (x - 128)) by lia. lia. }
        lia.
      * split; [right; exact Z|]. split; [lia|]. exists [b; b1; b2; b3], r. repeat constructor; assumption.
  - apply N.leb_gt in E2. destruct (194 <=? c)%N eqn:E1; [apply N.leb_le in E1|intros H; apply One; congruence].
    intros H. destruct (last_trail_cases _ _ _ _ _ H) as [(-> & ->)|(b2 & r & Q & H2 & -> & Z)]; [|apply One; reflexivity|].
    + rewrite <- (N.mod_unique c 32 6 (c - 192)) by lia. lia.
    + injection Q as -> ->. split; [right; exact Z|]. split; [lia|]. exists [b; b2], r. repeat constructor; assumption.
Qed.

(** ** The runs *)
Lemma run_more f : forall d k t bl tk best, lex_run f k t bl tk best <> LexLoop -> lex_run (f + d) k t bl tk best = lex_run f k t bl tk best.
Proof.
  induction f as [|f IH]; intros d k t bl tk best H; [now contradict H|]. cbn [Nat.add]. rewrite !lex_run_step in *. cbv zeta in *. set (best' := match accepts k with Some x => _ | None => _ end) in *. clearbody best'.
  destruct (moves k t) as [[k'|k']|]; [| |reflexivity]; destruct t; apply IH; exact H.
Qed.
Lemma run_best f k t bl tk b1 b2 x : accepts k = Some x -> lex_run f k t bl tk b1 = lex_run f k t bl tk b2.
Proof. intros A. destruct f as [|f]; [reflexivity|]. rewrite !lex_run_step, A. reflexivity. Qed.
Lemma moves_high k b t : high b -> moves k (b :: t) = pick (snd (lex_state k)) false 128.
Proof. intros H. unfold moves. cbn [at_eof lookahead]. apply pick_high; [apply states_small|exact H]. Qed.
Lemma run_high u : forall f k r bl tk best, Forall high u -> pick (snd (lex_state k)) false 128 = Some (Advance k) ->
  lex_run (length u + f) k (u ++ r) bl tk best = lex_run f k r bl (rev u ++ tk) best.
Proof.
  induction u as [|b u IH]; intros f k r bl tk best H L; [reflexivity|]. inversion H as [|? ? Hb Hu]; subst. cbn [length Nat.add app rev]. rewrite lex_run_step. cbv zeta. rewrite (moves_high _ _ _ Hb), L, IH by assumption. rewrite <- app_assoc. cbn [app].
  destruct (accepts k) as [x|] eqn:A; [apply (run_best _ _ _ _ _ _ _ x A)|reflexivity].
Qed.
Lemma chars_nil f : forall k bl tk best, lex_chars_run f k [] bl tk best = lex_run f k [] bl tk best.
Proof.
  induction f as [|f IH]; intros k bl tk best; [reflexivity|]. cbn [lex_chars_run lex_run]. destruct (lex_state k) as [acc tests].
  cbn [next_char]. change 0%Z with (Z.of_N 0). rewrite pick_ascii. cbn [lookahead at_eof skipn firstn rev app]. destruct (pick tests true 0) as [[k'|k']|]; [| |reflexivity]; apply IH.
Qed.
Lemma chars_run f : forall k t bl tk best, length t + 2 <= f -> lex_chars_run f k t bl tk best = lex_run f k t bl tk best.
Proof.
  induction f as [|f IH]; intros k t bl tk best L; [lia|]. rewrite lex_run_step. cbn [lex_chars_run]. unfold accepts, moves.
  pose proof (states_small k) as Sm. pose proof (states_loop k) as Lo. unfold small_state in Sm. unfold foreign_loops in Lo.
  destruct (lex_state k) as [acc tests]. cbn [fst snd] in *. cbv zeta. set (best' := match acc with Some x => _ | None => _ end) in *. clearbody best'.
  destruct t as [|b t].
  - cbn [next_char]. change 0%Z with (Z.of_N 0). rewrite pick_ascii. cbn [lookahead at_eof skipn firstn rev app]. destruct (pick tests true 0) as [[k'|k']|]; [| |reflexivity]; apply chars_nil.
  - cbn [at_eof lookahead]. destruct (N.ltb_spec (N_of_ascii b) 128) as [A|A].
    + replace (next_char (b :: t)) with (Z.of_N (N_of_ascii b), 1) by (unfold next_char; apply N.ltb_lt in A; rewrite A; reflexivity).
      rewrite pick_ascii. cbn [skipn firstn rev app]. cbn [length] in L. destruct (pick tests false (N_of_ascii b)) as [[k'|k']|]; [| |reflexivity]; apply IH; lia.
    + destruct (next_char (b :: t)) as [z n] eqn:E. destruct (next_char_high b t z n A E) as (F & N1 & u & r & Eu & Lu & Hu).
      rewrite (pick_foreign tests false z (N_of_ascii b) Sm F A). rewrite (pick_high tests _ Sm A). destruct (pick tests false 128) as [[k'|k']|]; [|discriminate|reflexivity].
      assert (L' : pick (snd (lex_state k')) false 128 = Some (Advance k')) by (destruct (pick (snd (lex_state k')) false 128) as [[k''|]|]; try discriminate; apply N.eqb_eq in Lo; congruence).
      destruct u as [|b' u]; [cbn in Lu; lia|]. injection Eu as <- ->. inversion Hu as [|? ? _ Hu']; subst.
      change (b :: u ++ r) with ((b :: u) ++ r). rewrite skipn_app, skipn_all, Nat.sub_diag, firstn_app, firstn_all, Nat.sub_diag. cbn [skipn firstn app]. rewrite app_nil_r. cbn [length] in L. rewrite app_length in L.
      rewrite IH by lia. replace f with (length u + (f - length u)) at 2 by lia. rewrite run_high by assumption. cbn [rev]. rewrite <- app_assoc. cbn [app].
      replace f with ((f - length u) + length u) at 1 by lia. apply run_more, lex_run_ends. lia.
Qed.
Theorem chars_lex k t : lex_chars k t = lex k t.
Proof. apply chars_run. lia. Qed.
Theorem chars_lex_in s t : lex_chars_in s t = lex_in s t.
Proof. unfold lex_chars_in, lex_in. destruct (lex_mode s) as [m|]; [|reflexivity]. rewrite !chars_lex. reflexivity. Qed.

(** ** The decoder *)

(** The tables, in other words: a second byte continues the first, gives no shorter form, no surrogate and nothing too large. *)
Definition second3 (h x : N) : bool := ((128 <=? x) && (x <? 192) && ((negb (h =? 0)) || (160 <=? x)) && ((negb (h =? 13)) || (x <? 160)))%N.
Definition second4 (h x : N) : bool := ((128 <=? x) && (x <? 192) && ((negb (h =? 0)) || (144 <=? x)) && ((negb (h =? 4)) || (x <? 144)) && (h <=? 4))%N.
Definition up_to (n : nat) : list N := map N.of_nat (seq 0 n).
Lemma in_up_to n x : (x < N.of_nat n)%N -> In x (up_to n).
Proof. intros L. unfold up_to. rewrite <- (N2Nat.id x). apply in_map, in_seq. lia. Qed.
Lemma check2 (f : N -> N -> bool) a b : forallb (fun h => forallb (f h) (up_to b)) (up_to a) = true -> forall h x, (h < N.of_nat a)%N -> (x < N.of_nat b)%N -> f h x = true.
Proof. intros C h x Lh Lx. rewrite forallb_forall in C. specialize (C h (in_up_to _ _ Lh)). rewrite forallb_forall in C. apply (C x (in_up_to _ _ Lx)). Qed.
Lemma table3 h x : (h < 16)%N -> (x < 256)%N -> N.testbit (nth (N.to_nat h) lead3_bits 0%N) (x / 32) = second3 h x.
Proof. intros Lh Lx. apply eqb_prop. apply (check2 (fun h x => Bool.eqb (N.testbit (nth (N.to_nat h) lead3_bits 0%N) (x / 32)) (second3 h x)) 16 256); [vm_compute; reflexivity|exact Lh|exact Lx]. Qed.
Lemma table4 h x : (h < 16)%N -> (x < 256)%N -> ((h <=? 4)%N && N.testbit (nth (N.to_nat (x / 16)) lead4_bits 0%N) h) = second4 h x.
Proof. intros Lh Lx. apply eqb_prop. apply (check2 (fun h x => Bool.eqb ((h <=? 4)%N && N.testbit (nth (N.to_nat (x / 16)) lead4_bits 0%N) h) (second4 h x)) 16 256); [vm_compute; reflexivity|exact Lh|exact Lx]. Qed.

Local Open Scope N_scope.
Lemma mod_of q a m : a < m -> (m * q + a) mod m = a.
Proof. intros L. symmetry. apply (N.mod_unique _ _ q); [exact L|reflexivity]. Qed.
Lemma div_of q a m : a < m -> (m * q + a) / m = q.
Proof. intros L. symmetry. apply (N.div_unique _ _ q a); [exact L|reflexivity]. Qed.
Lemma utf8_2 h l : 2 <= h -> h < 32 -> l < 64 -> utf8 (64 * h + l) = [ascii_of_N (192 + h); ascii_of_N (128 + l)].
Proof.
  intros A B C. unfold utf8, rest_byte. replace (64 * h + l <? 128) with false by (symmetry; apply N.ltb_ge; lia). replace (64 * h + l <? 2048) with true by (symmetry; apply N.ltb_lt; lia).
  rewrite div_of, mod_of by lia. reflexivity.
Qed.
Lemma utf8_3 h m l : 32 <= 64 * h + m -> h < 16 -> m < 64 -> l < 64 -> utf8 (64 * (64 * h + m) + l) = [ascii_of_N (224 + h); ascii_of_N (128 + m); ascii_of_N (128 + l)].
Proof.
  intros A B C D. unfold utf8, rest_byte. set (c := 64 * (64 * h + m) + l). replace (c <? 128) with false by (symmetry; apply N.ltb_ge; lia). replace (c <? 2048) with false by (symmetry; apply N.ltb_ge; lia). replace (c <? 65536) with true by (symmetry; apply N.ltb_lt; lia).
  change 4096 with (64 * 64). rewrite <- N.div_div by lia. unfold c. rewrite !div_of, !mod_of by lia. reflexivity.
Qed.
Lemma utf8_4 g h m l : 16 <= 64 * g + h -> g < 8 -> h < 64 -> m < 64 -> l < 64 ->
  utf8 (64 * (64 * (64 * g + h) + m) + l) = [ascii_of_N (240 + g); ascii_of_N (128 + h); ascii_of_N (128 + m); ascii_of_N (128 + l)].
Proof.
  intros A B C D E. unfold utf8, rest_byte. set (c := 64 * (64 * (64 * g + h) + m) + l). replace (c <? 128) with false by (symmetry; apply N.ltb_ge; lia). replace (c <? 2048) with false by (symmetry; apply N.ltb_ge; lia). replace (c <? 65536) with false by (symmetry; apply N.ltb_ge; lia).
  change 262144 with (64 * 64 * 64). change 4096 with (64 * 64). rewrite <- !N.div_div by lia. unfold c. rewrite !div_of, !mod_of by lia. reflexivity.
Qed.
Lemma byte_N n : n < 256 -> N_of_ascii (ascii_of_N n) = n.
Proof. apply N_ascii_embedding. Qed.
Lemma byte_of b n : N_of_ascii b = n -> b = ascii_of_N n.
Proof. intros <-. symmetry. apply ascii_N_embedding. Qed.
Lemma trail_of l : l < 64 -> trail (128 + l) = true.
Proof. intros L. unfold trail. apply andb_true_iff. split; apply N.leb_le; lia. Qed.
Lemma last_trail_of c n l r : l < 64 -> last_trail c n (ascii_of_N (128 + l) :: r) = (Z.of_N (64 * c + l), S n).
Proof. intros L. cbn [last_trail]. rewrite byte_N by lia. rewrite trail_of by exact L. replace (128 + l - 128) with l by lia. reflexivity. Qed.

Lemma next_2 h l r : 2 <= h -> h < 32 -> l < 64 -> next_char (ascii_of_N (192 + h) :: ascii_of_N (128 + l) :: r) = (Z.of_N (64 * h + l), 2%nat).
Proof.
  intros A B C. unfold next_char. rewrite !byte_N by lia. replace (192 + h <? 128) with false by (symmetry; apply N.ltb_ge; lia). replace (224 <=? 192 + h) with false by (symmetry; apply N.leb_gt; lia). replace (194 <=? 192 + h) with true by (symmetry; apply N.leb_le; lia).
  rewrite last_trail_of by exact C. change 192 with (32 * 6). rewrite mod_of by exact B. reflexivity.
Qed.
Lemma next_3 h m l r : h < 16 -> m < 64 -> l < 64 -> second3 h (128 + m) = true ->
  next_char (ascii_of_N (224 + h) :: ascii_of_N (128 + m) :: ascii_of_N (128 + l) :: r) = (Z.of_N (64 * (64 * h + m) + l), 3%nat).
Proof.
  intros A B C D. unfold next_char. rewrite !byte_N by lia. replace (224 + h <? 128) with false by (symmetry; apply N.ltb_ge; lia). replace (224 <=? 224 + h) with true by (symmetry; apply N.leb_le; lia). replace (224 + h <? 240) with true by (symmetry; apply N.ltb_lt; lia).
  change 224 with (16 * 14). rewrite mod_of by exact A. rewrite table3 by lia. rewrite D. rewrite last_trail_of by exact C. change 128 with (64 * 2). rewrite mod_of by exact B. reflexivity.
Qed.
Lemma next_4 g h m l r : g < 16 -> h < 64 -> m < 64 -> l < 64 -> second4 g (128 + h) = true ->
  next_char (ascii_of_N (240 + g) :: ascii_of_N (128 + h) :: ascii_of_N (128 + m) :: ascii_of_N (128 + l) :: r) = (Z.of_N (64 * (64 * (64 * g + h) + m) + l), 4%nat).
Proof.
  intros A B C D E. unfold next_char. rewrite !byte_N by lia. replace (240 + g <? 128) with false by (symmetry; apply N.ltb_ge; lia). replace (224 <=? 240 + g) with true by (symmetry; apply N.leb_le; lia). replace (240 + g <? 240) with false by (symmetry; apply N.ltb_ge; lia).
  replace (240 + g - 240) with g by lia. rewrite table4 by lia. rewrite E, trail_of by exact C. rewrite last_trail_of by exact D. replace (128 + m - 128) with m by lia. change 128 with (64 * 2). rewrite mod_of by exact B. reflexivity.
Qed.

Theorem decodes c r : character c -> next_char (utf8 c ++ r) = (Z.of_N c, length (utf8 c)).
Proof.
  intros Hc. destruct (N.ltb_spec c 128) as [L1|L1].
  { unfold utf8. replace (c <? 128) with true by (symmetry; apply N.ltb_lt; exact L1). cbn [app length]. unfold next_char. rewrite byte_N by lia. replace (c <? 128) with true by (symmetry; apply N.ltb_lt; exact L1). reflexivity. }
  pose proof (N.div_mod c 64 ltac:(lia)) as D0. pose proof (N.mod_lt c 64 ltac:(lia)) as L0. set (l := c mod 64) in *. set (c1 := c / 64) in *. clearbody l c1.
  destruct (N.ltb_spec c 2048) as [L2|L2].
  { rewrite D0. rewrite utf8_2 by lia. cbn [app length]. apply next_2; lia. }
  pose proof (N.div_mod c1 64 ltac:(lia)) as D1. pose proof (N.mod_lt c1 64 ltac:(lia)) as M1. set (m := c1 mod 64) in *. set (c2 := c1 / 64) in *. clearbody m c2. subst c1.
  destruct (N.ltb_spec c 65536) as [L3|L3].
  { rewrite D0. rewrite utf8_3 by lia. cbn [app length]. apply next_3; [lia|lia|lia|]. unfold second3. destruct Hc as [Hc|Hc].
    - destruct (N.leb_spec 128 (128 + m)), (N.ltb_spec (128 + m) 192), (N.eqb_spec c2 0), (N.leb_spec 160 (128 + m)), (N.eqb_spec c2 13), (N.ltb_spec (128 + m) 160); try reflexivity; exfalso; lia.
    - destruct (N.leb_spec 128 (128 + m)), (N.ltb_spec (128 + m) 192), (N.eqb_spec c2 0), (N.leb_spec 160 (128 + m)), (N.eqb_spec c2 13), (N.ltb_spec (128 + m) 160); try reflexivity; exfalso; lia. }
  pose proof (N.div_mod c2 64 ltac:(lia)) as D2. pose proof (N.mod_lt c2 64 ltac:(lia)) as M2. set (h := c2 mod 64) in *. set (g := c2 / 64) in *. clearbody h g. subst c2.
  rewrite D0. rewrite utf8_4 by (destruct Hc; lia). cbn [app length]. apply next_4; [destruct Hc; lia|lia|lia|lia|]. unfold second4. destruct Hc as [Hc|Hc]; [lia|].
  destruct (N.leb_spec 128 (128 + h)), (N.ltb_spec (128 + h) 192), (N.eqb_spec g 0), (N.leb_spec 144 (128 + h)), (N.eqb_spec g 4), (N.ltb_spec (128 + h) 144), (N.leb_spec g 4); try reflexivity; exfalso; lia.
Qed.

Lemma trail_inv b : trail (N_of_ascii b) = true -> exists l, l < 64 /\ b = ascii_of_N (128 + l).
Proof. unfold trail. intros H. apply andb_true_iff in H as (A & B). apply N.leb_le in A, B. exists (N_of_ascii b - 128). split; [lia|]. apply byte_of. lia. Qed.
Lemma last_trail_inv c n t z m : last_trail c n t = (z, m) -> z <> (-1)%Z -> exists l r, l < 64 /\ t = ascii_of_N (128 + l) :: r /\ z = Z.of_N (64 * c + l) /\ m = S n.
Proof.
  intros H Z. destruct t as [|b r]; [cbn [last_trail] in H; unfold ill_formed in H; congruence|]. cbn [last_trail] in H. destruct (trail (N_of_ascii b)) eqn:T; [|unfold ill_formed in H; congruence]. destruct (trail_inv b T) as (l & L & ->). exists l, r. rewrite byte_N in H by lia. replace (128 + l - 128) with l in H by lia.
  repeat split; try exact L; congruence.
Qed.

(** Only characters are read, and only in their own form. *)
Theorem decoded t z n : t <> [] -> next_char t = (z, n) -> z <> (-1)%Z -> exists c r, character c /\ t = utf8 c ++ r /\ z = Z.of_N c /\ n = length (utf8 c).
Proof.
  intros NE H Z. destruct t as [|b t1]; [congruence|]. unfold next_char in H. pose proof (N_ascii_bounded b) as Bb.
  destruct (N.ltb_spec (N_of_ascii b) 128) as [L|L].
  { exists (N_of_ascii b), t1. unfold utf8. replace (N_of_ascii b <? 128) with true by (symmetry; apply N.ltb_lt; exact L). rewrite ascii_N_embedding. cbn [app length]. repeat split; try congruence. left. lia. }
  destruct t1 as [|b1 t2]; [unfold ill_formed in H; congruence|]. pose proof (N_ascii_bounded b1) as Bx.
  destruct (N.leb_spec 224 (N_of_ascii b)) as [L2|L2].
  - destruct (N.ltb_spec (N_of_ascii b) 240) as [L3|L3].
    + assert (exists h, N_of_ascii b = 16 * 14 + h /\ h < 16) as (h & Eb & Lh) by (exists (N_of_ascii b - 224); lia). rewrite Eb in H. rewrite mod_of in H by exact Lh. rewrite table3 in H by assumption.
      destruct (second3 h (N_of_ascii b1)) eqn:T; [|unfold ill_formed in H; congruence].
      assert (exists m, N_of_ascii b1 = 64 * 2 + m /\ m < 64) as (m & Ex & Lm). { unfold second3 in T. rewrite !andb_true_iff in T. destruct T as (((T1 & T2) & _) & _). apply N.leb_le in T1. apply N.ltb_lt in T2. exists (N_of_ascii b1 - 128). lia. }
      rewrite Ex in H, T. rewrite mod_of in H by exact Lm. destruct (last_trail_inv _ _ _ _ _ H Z) as (l & r & Ll & -> & -> & ->).
      assert (T' : (h = 0 -> 32 <= m) /\ (h = 13 -> m < 32)). { unfold second3 in T. rewrite !andb_true_iff, !orb_true_iff, !negb_true_iff in T. destruct T as ((_ & T3) & T4). split; intros ->.
        - destruct T3 as [T3|T3]; [discriminate|apply N.leb_le in T3; lia]. - destruct T4 as [T4|T4]; [discriminate|apply N.ltb_lt in T4; lia]. }
      destruct T' as (T0 & T13). assert (32 <= 64 * h + m) by (destruct (N.eq_dec h 0) as [e|e]; [specialize (T0 e)|]; lia).
      exists (64 * (64 * h + m) + l), r. rewrite utf8_3 by assumption. cbn [app length]. rewrite (byte_of _ _ Eb), (byte_of _ _ Ex). repeat split. unfold character. destruct (N.eq_dec h 13) as [e|e]; [specialize (T13 e); lia|]. lia.
    + assert (exists g, N_of_ascii b = 240 + g /\ g < 16) as (g & Eb & Lg) by (exists (N_of_ascii b - 240); lia). rewrite Eb in H. replace (240 + g - 240) with g in H by lia. rewrite table4 in H by assumption.
      destruct (second4 g (N_of_ascii b1)) eqn:T; [|unfold ill_formed in H; congruence].
      assert (exists h, N_of_ascii b1 = 64 * 2 + h /\ h < 64) as (h & Ex & Lh). { unfold second4 in T. rewrite !andb_true_iff in T. destruct T as ((((T1 & T2) & _) & _) & _). apply N.leb_le in T1. apply N.ltb_lt in T2. exists (N_of_ascii b1 - 128). lia. }
      rewrite Ex in H, T. rewrite mod_of in H by exact Lh. destruct t2 as [|b2 t3]; [unfold ill_formed in H; congruence|]. destruct (trail (N_of_ascii b2)) eqn:T2; [|unfold ill_formed in H; congruence].
      destruct (trail_inv b2 T2) as (m & Lm & ->). rewrite byte_N in H by lia. replace (128 + m - 128) with m in H by lia. destruct (last_trail_inv _ _ _ _ _ H Z) as (l & r & Ll & -> & -> & ->).
      assert (T' : (g = 0 -> 16 <= h) /\ (g = 4 -> h < 16) /\ g <= 4). { unfold second4 in T. rewrite !andb_true_iff, !orb_true_iff, !negb_true_iff in T. destruct T as (((_ & T3) & T4) & T5). apply N.leb_le in T5. split; [|split; [|exact T5]]; intros ->.
        - destruct T3 as [T3|T3]; [discriminate|apply N.leb_le in T3; lia]. - destruct T4 as [T4|T4]; [discriminate|apply N.ltb_lt in T4; lia]. }
      destruct T' as (T0 & T4 & T5). assert (16 <= 64 * g + h) by (destruct (N.eq_dec g 0) as [e|e]; [specialize (T0 e)|]; lia).
      exists (64 * (64 * (64 * g + h) + m) + l), r. rewrite utf8_4 by (assumption || lia). cbn [app length]. rewrite (byte_of _ _ Eb), (byte_of _ _ Ex). repeat split. unfold character. right. destruct (N.eq_dec g 4) as [e|e]; [specialize (T4 e); lia|]. lia.
  - destruct (N.leb_spec 194 (N_of_ascii b)) as [L1|L1]; [|unfold ill_formed in H; congruence].
    assert (exists h, N_of_ascii b = 32 * 6 + h /\ 2 <= h /\ h < 32) as (h & Eb & Gh & Lh) by (exists (N_of_ascii b - 192); lia). rewrite Eb in H. rewrite mod_of in H by exact Lh.
    destruct (last_trail_inv _ _ _ _ _ H Z) as (l & r & Ll & Et & -> & ->). injection Et as -> ->.
    exists (64 * h + l), r. rewrite utf8_2 by assumption. cbn [app length]. rewrite (byte_of _ _ Eb). repeat split. left. lia.
Qed.
Local Close Scope N_scope.

Lemma utf8_length c : 1 <= length (utf8 c) <= 4.
Proof. unfold utf8. destruct (_ <? _)%N; [cbn; lia|]. destruct (_ <? _)%N; [cbn; lia|]. destruct (_ <? _)%N; cbn; lia. Qed.
Lemma ill_cases t z n : next_char t = (z, n) -> z = (-1)%Z -> n = 1.
Proof.
  intros H ->. destruct t as [|b t1]; [discriminate|]. unfold next_char in H. 
  assert (LT : forall c n0 t0, last_trail c n0 t0 = ((-1)%Z, n) -> n = 1). { intros c n0 t0 Q. destruct t0 as [|b0 r0]; cbn [last_trail] in Q; [unfold ill_formed in Q; congruence|]. destruct (trail _); [|unfold ill_formed in Q; congruence]. assert (E : Z.of_N (64 * c + (N_of_ascii b0 - 128)) = (-1)%Z) by congruence. lia. }
  destruct (_ <? 128)%N; [assert (E : Z.of_N (N_of_ascii b) = (-1)%Z) by congruence; lia|]. destruct t1 as [|b1 t2]; [unfold ill_formed in H; congruence|].
  destruct (224 <=? _)%N.
  - destruct (_ <? 240)%N.
    + destruct (N.testbit _ _); [apply (LT _ _ _ H)|unfold ill_formed in H; congruence].
    + destruct (_ && _); [|unfold ill_formed in H; congruence]. destruct t2 as [|b2 t3]; [unfold ill_formed in H; congruence|]. destruct (trail _); [apply (LT _ _ _ H)|unfold ill_formed in H; congruence].
  - destruct (194 <=? _)%N; [apply (LT _ _ _ H)|unfold ill_formed in H; congruence].
Qed.

(** ** The byte order mark *)
Theorem skip_drop t : skip_mark t = drop_mark t.
Proof.
  unfold skip_mark. destruct (next_char t) as [z n] eqn:E. destruct (Z.eqb_spec z 65279) as [->|NE].
  - destruct t as [|b t]; [discriminate|]. destruct (decoded (b :: t) 65279 n ltac:(discriminate) E ltac:(discriminate)) as (c & r & _ & Et & Ez & ->). replace c with 65279%N in * by lia. rewrite Et. reflexivity.
  - destruct (list_eq_dec ascii_dec (firstn 3 t) (utf8 65279)) as [Q|Q].
    + exfalso. apply NE. rewrite <- (firstn_skipn 3 t), Q in E. rewrite decodes in E by (right; lia). injection E as <- _. reflexivity.
    + destruct t as [|b1 [|b2 [|b3 r]]]; try reflexivity; cbn [firstn] in Q; unfold drop_mark.
      destruct (_ && _) eqn:B; [|reflexivity]. exfalso. apply Q. rewrite !andb_true_iff, !N.eqb_eq in B. destruct B as ((B1 & B2) & B3). rewrite (byte_of _ _ B1), (byte_of _ _ B2), (byte_of _ _ B3). reflexivity.
Qed.

(** ** Parsing *)
Lemma advance_same stk la t : advance_chars stk la t = advance stk la t.
Proof. unfold advance_chars, advance. destruct la as [a|]; [reflexivity|]. rewrite chars_lex_in. reflexivity. Qed.
Lemma turns_same f : forall stk la t, turns_chars f stk la t = turns f stk la t.
Proof. induction f as [|f IH]; intros stk la t; [reflexivity|]. cbn [turns_chars turns]. rewrite advance_same. destruct (advance stk la t); [apply IH|reflexivity]. Qed.
Theorem parse_same t : parse_chars t = parse t.
Proof. unfold parse_chars, parse. rewrite turns_same, skip_drop. reflexivity. Qed.
Theorem script_same t : read_script t = script_in t.
Proof. unfold read_script, script_in. rewrite parse_same. reflexivity. Qed.

Lemma turns_more f : forall d stk la t, turns f stk la t <> NoFuel -> turns (f + d) stk la t = turns f stk la t.
Proof. induction f as [|f IH]; intros d stk la t H; [now contradict H|]. cbn [Nat.add turns] in *. destruct (advance stk la t); [apply IH; exact H|reflexivity]. Qed.
Lemma parse_no_fuel t : parse t <> NoFuel.
Proof. destruct (parse_ends t) as [(r & ->)| ->]; discriminate. Qed.
Theorem mark_ignored t : drop_mark t = t -> read_script (utf8 65279 ++ t) = read_script t.
Proof.
  intros D. rewrite !script_same. unfold script_in. replace (parse (utf8 65279 ++ t)) with (parse t); [reflexivity|].
  unfold parse. rewrite D. change (drop_mark (utf8 65279 ++ t)) with t. symmetry.
  replace (parse_fuel (utf8 65279 ++ t)) with (parse_fuel t + 120) by (unfold parse_fuel; change (length (utf8 65279 ++ t)) with (3 + length t); lia).
  apply turns_more. intros Q. apply (parse_no_fuel t). unfold parse. rewrite D. exact Q.
Qed.

(** A text may not begin with a character outside ASCII but the mark. *)
Lemma no_token k b t : high b -> accepts k = None -> pick (snd (lex_state k)) false 128 = None -> lex k (b :: t) = NotFound.
Proof. intros H A P. unfold lex. cbn [length Nat.add]. rewrite lex_run_step, A, (moves_high _ _ _ H), P. reflexivity. Qed.
Theorem foreign_start r t0 : character r -> (128 <= r)%N -> r <> 65279%N -> read_script (utf8 r ++ t0) = None.
Proof.
  intros C L NM. remember (utf8 r ++ t0) as t eqn:Et. rewrite script_same. unfold script_in, parse.
  assert (D : drop_mark t = t).
  { rewrite <- skip_drop. unfold skip_mark. rewrite Et, decodes by exact C. destruct (Z.eqb_spec (Z.of_N r) 65279) as [Q|Q]; [lia|reflexivity]. }
  rewrite D. destruct t as [|b t']; [pose proof (utf8_length r) as U; destruct (utf8 r); [cbn in U; lia|discriminate]|].
  assert (Hb : high b).
  { destruct (N.ltb_spec (N_of_ascii b) 128) as [A|A]; [exfalso|exact A]. assert (E : next_char (b :: t') = (Z.of_N (N_of_ascii b), 1)) by (unfold next_char; apply N.ltb_lt in A; rewrite A; reflexivity).
    rewrite Et, decodes in E by exact C. assert (Z.of_N r = Z.of_N (N_of_ascii b)) by congruence. lia. }
  unfold parse_fuel. replace (40 * (length (b :: t') + 2)) with (S (39 + 40 * (length (b :: t') + 1))) by lia. cbn [turns]. unfold advance. cbn [state].
  assert (M : exists m, lex_mode 1 = Some m /\ accepts m = None /\ pick (snd (lex_state m)) false 128 = None) by (eexists; repeat split; vm_compute; reflexivity).
  destruct M as (m & M & MA & MP). replace (lex_in 1 (b :: t')) with NoToken; [reflexivity|]. unfold lex_in. rewrite M, (no_token m b t' Hb MA MP), (no_token 0 b t' Hb) by (vm_compute; reflexivity). reflexivity.
Qed.

(** ** Strings and comments *)
Lemma byte_not n b : (N_of_ascii b <> n) -> (n < 256)%N -> b <> ascii_of_N n.
Proof. intros H L ->. rewrite byte_N in H by exact L. congruence. Qed.
Lemma rest_high x : high (rest_byte x).
Proof. unfold high, rest_byte. pose proof (N.mod_lt x 64 ltac:(lia)). rewrite byte_N by lia. generalize (x mod 64)%N; intros; lia. Qed.
Lemma utf8_cases c : character c -> (c < 128)%N /\ utf8 c = [ascii_of_N c] \/ (128 <= c)%N /\ Forall high (utf8 c).
Proof.
  intros C. destruct (N.ltb_spec c 128) as [A|A].
  - left. split; [exact A|]. unfold utf8. apply N.ltb_lt in A. rewrite A. reflexivity.
  - right. split; [exact A|]. destruct (utf8 c) as [|b t] eqn:E; [constructor|].
    assert (Hb : high b). { destruct (N.ltb_spec (N_of_ascii b) 128) as [B|B]; [exfalso|exact B]. pose proof (decodes c [] C) as D. rewrite E, app_nil_r in D.
      assert (Q : next_char (b :: t) = (Z.of_N (N_of_ascii b), 1)) by (unfold next_char; apply N.ltb_lt in B; rewrite B; reflexivity). rewrite Q in D. assert (Z.of_N (N_of_ascii b) = Z.of_N c) by congruence. lia. }
    constructor; [exact Hb|]. unfold utf8 in E. replace (c <? 128)%N with false in E by (symmetry; apply N.ltb_ge; exact A). destruct (_ <? _)%N; [injection E as _ <-; repeat constructor; apply rest_high|]. destruct (_ <? _)%N; injection E as _ <-; repeat constructor; apply rest_high.
Qed.
Lemma bytes_avoid l c : (forall n, In n l -> (n < 128)%N) -> any_but l c -> Forall (fun b => ~ In (N_of_ascii b) l) (utf8 c).
Proof.
  intros S (C & N). destruct (utf8_cases c C) as [(L & ->)|(L & H)].
  - repeat constructor. rewrite byte_N by lia. exact N.
  - eapply Forall_impl; [|exact H]. intros b Hb I. specialize (S _ I). unfold high in Hb. lia.
Qed.
Lemma texts_avoid l cs : (forall n, In n l -> (n < 128)%N) -> Forall (any_but l) cs -> Forall (fun b => ~ In (N_of_ascii b) l) (flat_map utf8 cs).
Proof. intros S H. induction H as [|c cs Hc _ IH]; [constructor|]. cbn [flat_map]. apply Forall_app. split; [apply bytes_avoid; assumption|exact IH]. Qed.
Lemma quotable_all s : Forall (fun b => ~ In (N_of_ascii b) [34; 92; 0]%N) s -> quotable s.
Proof.
  induction s as [|b s IH] using rev_ind; intros H; [constructor|]. apply Forall_app in H as (Hs & Hb). inversion Hb as [|? ? N _]; subst. cbn [In] in N.
  apply quotable_plain; [apply IH; exact Hs|..]; intros ->; apply N; cbv; tauto.
Qed.
Lemma inline_all s : Forall (fun b => ~ In (N_of_ascii b) [10; 0]%N) s -> forallb inline s = true.
Proof.
  intros H. apply forallb_forall. rewrite Forall_forall in H. intros b I. specialize (H b I). unfold inline. apply andb_true_iff. cbn [In] in H. split; apply negb_true_iff; apply Ascii.eqb_neq; intros ->; apply H; cbv; tauto.
Qed.
Theorem strings_and_comments ds cs : Forall (any_but [10; 0]%N) ds -> Forall (any_but [34; 92; 0]%N) cs ->
  read_script (lit "# " ++ flat_map utf8 ds ++ [LF] ++ lit "print """ ++ flat_map utf8 cs ++ lit """" ++ [LF]) = Some [SPrint (EStr (flat_map utf8 cs))].
Proof.
  intros Hd Hc. apply texts_avoid in Hd; [|cbn; intros n [<-|[<-|[]]]; lia]. apply texts_avoid in Hc; [|cbn; intros n [<-|[<-|[<-|[]]]]; lia].
  set (d := flat_map utf8 ds) in *. set (s := flat_map utf8 cs) in *. rewrite script_same.
  set (note := Tok T_comment [] (lit "# " ++ d) false). set (pr := Tok T_print [LF] (lit "print") true). set (st := Tok T_string (lit " ") (lit """" ++ s ++ lit """") false). set (lf := Tok T_LF [] [LF] true).
  replace (lit "# " ++ d ++ [LF] ++ lit "print """ ++ s ++ lit """" ++ [LF]) with (written [note; pr; st; lf] []) by (unfold written; cbn [flat_map k_blank k_text note pr st lf app]; rewrite !app_nil_r, <- !app_assoc; reflexivity).
  apply script_read.
  - change [note; pr; st; lf] with ([note] ++ ([pr; st] ++ [] ++ [lf]) ++ []). apply script_lines; [|apply lines_one, line_ended|constructor].
    + repeat constructor. exists " "%char, d. repeat split; try discriminate. cbn [forallb]. rewrite (inline_all d Hd). reflexivity.
    + apply is_print; [repeat split|]. apply is_string. repeat split. apply quotable_all, Hc.
    + constructor.
    + right. repeat split; discriminate.
  - cbn [laid onward k_sym k_break k_blank note pr st lf gap apart written flat_map app k_text]. repeat split; cbv; try reflexivity; try congruence.
Qed.
