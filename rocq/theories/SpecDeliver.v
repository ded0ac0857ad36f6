(** * What is assumed of installing single products while building. *)

From Coq Require Import ZArith Ascii String Lia Bool List.
From Verif Require Import Base FileSys Build SpecBuild SpecHistory.
Import ListNotations.

Section Delivery.
Variable E : env.
(** Where the install map puts a product. *)
Variable goes : bytes -> option bytes.

(** A destination is no directory, and has the product's content if it isn't older than the product. *)
Definition unaltered (f : fs) (o d : bytes) : Prop :=
  (forall t, f d <> Dir t) /\ forall c t c' t', f o = File c t -> f d = File c' t' -> (t <= t')%Z -> c' = c.

(** Installing a product copies it to its destination and changes no other destination (PropertiesInstall has what [install_cookie] does on a file system with
    directories and links). *)
Record delivers : Prop := {
  dl_copies : forall o d t f f' c tau, goes o = Some d -> unaltered f o d -> f o = File c tau -> installer E o t f = (true, f') -> exists tau', f' d = File c tau';
  dl_only : forall o o' d t f, o <> o' -> goes o' = Some d -> snd (installer E o t f) d = f d;
}.

(** The product is a file, and its destination has its content. *)
Definition delivered (f : fs) (o : bytes) : Prop :=
  forall d, goes o = Some d -> exists c t t', f o = File c t /\ f d = File c t'.

(** Before the build, the destinations are older than it, and none has been changed since its product was made. *)
Definition awaiting (t0 : Z) (f : fs) (o : bytes) : Prop :=
  forall d, goes o = Some d -> unaltered f o d /\ (forall c t, f d = File c t -> (t < t0)%Z) /\ forall t, f o <> Dir t.

End Delivery.
