(** * C81: the order of the install map does not matter. *)

From Coq Require Import ZArith Ascii String Lia Bool List Permutation.
From Verif Require Import Base Deps FileSys Frugal FrugalProofs Vfs Install SpecInstall VfsProofs PathProofs InstallProofs InstallAll OrderProofs PropertiesInstall.
Import ListNotations.

(** Two successful installations of the same entries in two orders, at whatever times: each destination has the same
    content after either, a directory's with its whole tree, and the same copies have been made. Missing from the full
    statement: destinations in one another's tree (refuted below) and the other conditions of C31. *)
Theorem C81_order_partial S S2 O prefix P clock clock2 m m' w w1 w2 :
  tidy S -> tidy S2 -> s_cwd S2 = s_cwd S -> slash_free (s_cwd S) -> Forall (fun c => c <> []) O -> slash_free O -> Permutation m m' ->
  tame (s_cwd S) prefix P (nodes w) m ->
  (forall k v, In (k, v) m -> good_source (s_cwd S) O P (dests P m) (nodes w) k v) ->
  install_all S (unparse O) {| i_map := Some m; i_prefix := Some prefix |} clock w = Ok (true, w1) ->
  install_all S2 (unparse O) {| i_map := Some m'; i_prefix := Some prefix |} clock2 w = Ok (true, w2) ->
  (forall k v s, In (k, v) m -> lookup (s_cwd S) (nodes w) false k = WFound s -> ~ product O s ->
     content (nodes w1 (dest P v)) = content (nodes w2 (dest P v)) /\
     (is_directory (nodes w s) -> forall x, content (nodes w1 (x ++ dest P v)) = content (nodes w2 (x ++ dest P v)))) /\
  Permutation (copies w1) (copies w2).
Proof.
  exact (fun T T2 CW SC ONE SO PM TM GS R1 R2 =>
    match order_copies S S2 O prefix P clock clock2 m m' w w1 w2 T T2 CW SC ONE SO PM TM GS R1 R2 with
    | conj H C => conj (fun k v s I L NP => match H k v s I L NP with conj A B => holds_same _ _ _ _ _ A B end) C
    end).
Qed.
Print Assumptions C81_order_partial.

(** Of two sources with one destination, the first that is installed wins: the copy is then newer than the other. *)
Theorem C81_same_destination_refuted : exists S O prefix P clock m m' w w1 w2 v,
  tidy S /\ Permutation m m' /\ (forall k v', In (k, v') m -> v' = v /\ exists c t, view (s_cwd S) (nodes w) k = File c t) /\
  install_all S (unparse O) {| i_map := Some m; i_prefix := Some prefix |} clock w = Ok (true, w1) /\
  install_all S (unparse O) {| i_map := Some m'; i_prefix := Some prefix |} clock w = Ok (true, w2) /\
  content (nodes w1 (dest P v)) <> content (nodes w2 (dest P v)).
Proof.
  set (l := (at_ [lit "y.h"], VFile (lit "int y;") 5%Z) :: tree).
  exists free_sys, bob_dir, (lit "/usr/local"), usr_local, clock, [(lit "x.h", lit "z.h"); (lit "y.h", lit "z.h")], [(lit "y.h", lit "z.h"); (lit "x.h", lit "z.h")], (begin l).
  eexists. eexists. exists (lit "z.h"). split; [exact free_tidy|]. split; [apply perm_swap|]. split.
  { intros k v [I|[I|[]]]; injection I as <- <-; (split; [reflexivity|]); eexists; eexists; vm_compute; reflexivity. }
  split; [vm_compute; reflexivity|]. split; [vm_compute; reflexivity|]. vm_compute. discriminate.
Qed.
Print Assumptions C81_same_destination_refuted.

(** The map of C29-C31, backwards. *)
Example C81_case : Permutation a_map (rev a_map) /\ tame proj (lit "/usr/local") usr_local (place tree) a_map /\
  (forall k v, In (k, v) a_map -> good_source proj bob_dir usr_local (dests usr_local a_map) (place tree) k v) /\
  exists w1 w2, run_install tree a_map = Ok (true, w1) /\ run_install tree (rev a_map) = Ok (true, w2) /\ length (copies w1) = 2%nat /\ copies w1 <> copies w2.
Proof.
  split; [apply Permutation_rev|]. split; [exact a_map_tame|]. split; [apply C29_nonvacuous|]. eexists. eexists.
  split; [vm_compute; reflexivity|]. split; [vm_compute; reflexivity|]. split; [reflexivity|]. vm_compute. discriminate.
Qed.
