(** * C73: characters outside ASCII in scripts.

    [next_char t] (Utf8.v) is the character that the reader finds at the start of the text [t], or -1, and how many bytes it takes;
    [lex_chars_in], [parse_chars] and [read_script] read a text character by character with it, as the code does. [utf8 c] (SpecUtf8.v)
    are the bytes of the character [c] by RFC 3629, [character c] says that [c] is one. [lex_in], [parse] and [script_in] take single bytes;
    the other properties of scripts are about these. *)

From Coq Require Import NArith ZArith Arith Ascii String Lia Bool List.
From Verif Require Import Base FlAst FlTables FlParse FlRead SpecLex SpecUtf8 Utf8 Utf8Proofs.
Import ListNotations.
Local Open Scope nat_scope.

(** ** The decoder *)

(** Every character is read as itself, with all its bytes and no more, whatever follows. *)
Theorem C73_characters_are_read c r : character c -> next_char (utf8 c ++ r) = (Z.of_N c, length (utf8 c)).
Proof. exact (decodes c r). Qed.
Print Assumptions C73_characters_are_read.

(** Nothing else is read as a character: no longer form of one, no surrogate, nothing above 10FFFF, nothing cut short. *)
Theorem C73_only_characters_are_read t z n : t <> [] -> next_char t = (z, n) -> z <> (-1)%Z ->
  exists c r, character c /\ t = utf8 c ++ r /\ z = Z.of_N c /\ n = length (utf8 c).
Proof. exact (decoded t z n). Qed.
Print Assumptions C73_only_characters_are_read.

(** Anything else is passed over one byte at a time. *)
Theorem C73_ill_formed_bytes t n : next_char t = ((-1)%Z, n) -> n = 1.
Proof. exact (fun H => ill_cases t _ n H eq_refl). Qed.
Print Assumptions C73_ill_formed_bytes.

(** ** Reading characters or bytes *)

(** For every text, well-formed or not, and in every state of the parser: the same tokens, trees and scripts. *)
Theorem C73_characters_or_bytes :
  (forall s t, lex_chars_in s t = lex_in s t) /\ (forall t, parse_chars t = parse t) /\ (forall t, read_script t = script_in t).
Proof. exact (conj chars_lex_in (conj parse_same script_same)). Qed.
Print Assumptions C73_characters_or_bytes.

(** ** Scripts *)

(** Strings may hold any characters but quotes, backslashes and NUL, and their bytes reach the program unchanged; comments may hold any but line ends and NUL. *)
Theorem C73_strings_and_comments ds cs : Forall (any_but [10; 0]%N) ds -> Forall (any_but [34; 92; 0]%N) cs ->
  read_script (lit "# " ++ flat_map utf8 ds ++ [LF] ++ lit "print """ ++ flat_map utf8 cs ++ lit """" ++ [LF]) = Some [SPrint (EStr (flat_map utf8 cs))].
Proof. exact (strings_and_comments ds cs). Qed.
Print Assumptions C73_strings_and_comments.

(** A byte order mark before a text changes nothing. *)
Theorem C73_mark_ignored t : drop_mark t = t -> read_script (utf8 65279 ++ t) = read_script t.
Proof. exact (mark_ignored t). Qed.
Print Assumptions C73_mark_ignored.

(** A text that begins with any other character outside ASCII is no script. *)
Theorem C73_foreign_start c t : character c -> (128 <= c)%N -> c <> 65279%N -> read_script (utf8 c ++ t) = None.
Proof. exact (foreign_start c t). Qed.
Print Assumptions C73_foreign_start.

(** ** Cases that meet the hypotheses *)

(** U+00E9, U+20AC, U+1D11E. *)
Definition sample : list N := [233; 8364; 119070]%N.
Example sample_bytes : map N_of_ascii (flat_map utf8 sample) = [195; 169; 226; 130; 172; 240; 157; 132; 158]%N.
Proof. vm_compute. reflexivity. Qed.
Example C73_nonvacuous :
  Forall (any_but [10; 0]%N) sample /\ Forall (any_but [34; 92; 0]%N) sample /\ drop_mark (lit "print 1" ++ [LF]) = lit "print 1" ++ [LF] /\
  read_script (utf8 65279 ++ lit "print 1" ++ [LF]) = Some [SPrint (ENum (lit "1"))] /\
  next_char (map ascii_of_N [192; 128]%N) = ((-1)%Z, 1) /\ next_char (map ascii_of_N [237; 160; 128]%N) = ((-1)%Z, 1) /\ next_char (map ascii_of_N [244; 144; 128; 128]%N) = ((-1)%Z, 1).
Proof.
  assert (S : forall l, (forall n, In n l -> (n < 128)%N) -> Forall (any_but l) sample).
  { intros l H. unfold sample. assert (forall c, character c -> (128 <= c)%N -> any_but l c) by (intros c C L; split; [exact C|intros I; apply H in I; lia]).
    apply Forall_cons; [apply H0; unfold character; lia|]. apply Forall_cons; [apply H0; unfold character; lia|]. apply Forall_cons; [apply H0; unfold character; lia|]. apply Forall_nil. }
  split; [apply S; intros n [<-|[<-|[]]]; lia|]. split; [apply S; intros n [<-|[<-|[<-|[]]]]; lia|]. repeat split; vm_compute; reflexivity.
Qed.
