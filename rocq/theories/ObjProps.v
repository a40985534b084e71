(** C73, C74: sizes and comparison of objects. *)
From Coq Require Import String.
From Coq Require Import List Ascii Bool Arith ZArith Lia.
From Verif Require Import PyBase PyStr MemModel ObjModel ObjSpec ObjProofs ObjProofs2.
Import ListNotations.
Open Scope list_scope.
Open Scope nat_scope.

(** * C73 *)
(** The graph may have cycles and modules: the search always ends. *)
Theorem C73_terminates : forall h n x, (forall x y, x < n -> refers h x y -> y < n) -> x < n ->
  exists r, total_size h n x = Some r /\ (forall e, r = Err e -> e = TypeError).
Proof.
  intros h n x C Hx. destruct (terminates h n C (S n) [] x Hx (unseen_nil n)) as (new & r & E & F).
  exists r. split; [unfold total_size; now rewrite E|exact F].
Qed.
Print Assumptions C73_terminates.

(** Full statement: for every graph the result is the sum of the sizes of the
    objects that can be reached, each once.  Shown when no module can be reached
    and the slots of the objects are those that [__slots__] lists by name; without
    it is false (below). *)
Theorem C73_sum_partial : forall h n x, (forall x y, x < n -> refers h x y -> y < n) -> x < n ->
  (forall y, reach h x y -> okid (h y) <> KModule) -> (forall y, reach h x y -> slots_listed h y) ->
  exists l, NoDup l /\ (forall y, In y l <-> reach h x y) /\ total_size h n x = Some (Ok (sizes h l)).
Proof. intros h n x C Hx M S. apply total_size_spec; [exact C|]. split; auto. Qed.
Print Assumptions C73_sum_partial.

Definition atom (n : nat) : obj := mkobj n KLeaf None None [].
(** A list that holds itself, an integer twice, and an object with a dictionary and a slot. *)
Definition graph (x : nat) : obj :=
  match x with
  | 0 => mkobj 80 (KGroup [1; 0; 1; 2]) None None []
  | 2 => mkobj 48 KLeaf (Some 3) (Some (DMany [s_ "a"; s_ "b"])) [(s_ "a", 1); (s_ "b", 4)]
  | 3 => mkobj 64 (KGroup [5; 0]) None None []
  | 4 => atom 50
  | 5 => atom 30
  | _ => atom 28
  end.
Example C73_ex : total_size graph 6 0 = Some (Ok (80 + 28 + 48 + 64 + 50 + 30)).
Proof. reflexivity. Qed.

(** A module in a list: the sizes of the other items vanish. *)
Definition with_module (x : nat) : obj :=
  match x with
  | 0 => mkobj 72 (KGroup [1; 2]) None None []
  | 1 => atom 1000
  | _ => mkobj 50 KModule None None []
  end.
Theorem C73_module_refuted : exists h n x y, (forall x y, x < n -> refers h x y -> y < n) /\ reach h x y /\ x <> y /\
  okid (h y) <> KModule /\ total_size h n x = Some (Ok (osize (h x))) /\ 0 < osize (h y).
Proof.
  exists with_module, 3, 0, 1. repeat split.
  - intros [|[|[|x]]] y Hx [(l & E & H)|[H|H]]; cbn in *; try discriminate; try tauto; try lia.
    injection E as <-. cbn in H. lia.
  - apply reach_one. left. eexists. split; [reflexivity|now left].
  - discriminate.
  - discriminate.
  - cbn. lia.
Qed.
Print Assumptions C73_module_refuted.

(** A class whose [__slots__] is a single string: its letters are looked up. *)
Definition one_slot (x : nat) : obj :=
  match x with
  | 0 => mkobj 40 KLeaf None (Some (DOne (s_ "data"))) [(s_ "data", 1)]
  | _ => atom 1000
  end.
Theorem C73_string_slot_refuted : exists h n x y, (forall x y, x < n -> refers h x y -> y < n) /\ reach h x y /\ x <> y /\
  total_size h n x = Some (Ok (osize (h x))) /\ 0 < osize (h y).
Proof.
  exists one_slot, 2, 0, 1. repeat split.
  - intros [|[|x]] y Hx [(l & E & H)|[H|H]]; cbn in *; try discriminate; try tauto; lia.
  - apply reach_one. right. right. now left.
  - discriminate.
  - cbn. lia.
Qed.
Print Assumptions C73_string_slot_refuted.

(** The slots of a base class are not looked at. *)
Definition base_slot (x : nat) : obj :=
  match x with
  | 0 => mkobj 48 KLeaf None (Some (DMany [s_ "own"])) [(s_ "own", 1); (s_ "inherited", 2)]
  | 1 => atom 28
  | _ => atom 1000
  end.
Theorem C73_inherited_slot_refuted : exists h n x y, (forall x y, x < n -> refers h x y -> y < n) /\ reach h x y /\
  exists s, total_size h n x = Some (Ok s) /\ s < osize (h y).
Proof.
  exists base_slot, 3, 0, 2. repeat split.
  - intros [|[|[|x]]] y Hx [(l & E & H)|[H|H]]; cbn in *; try discriminate; try tauto; lia.
  - apply reach_one. right. right. right. now left.
  - eexists. split; [reflexivity|]. cbn. lia.
Qed.
Print Assumptions C73_inherited_slot_refuted.

(** * C74 *)
(** Values are equal exactly if they are the same: numbers by value, whatever
    their type, except that a negative zero differs from zero and NaN is equal to
    itself; lists and tuples by their items; dictionaries by keys and values. *)
Theorem C74_exact : forall a b, plain_value a -> plain_value b -> (allequal a b = true <-> same a b).
Proof. exact allequal_same. Qed.
Print Assumptions C74_exact.

Theorem C74_reflexive : forall a, plain_value a -> allequal a a = true.
Proof. intros a P. apply allequal_same; auto. now apply same_refl. Qed.
Print Assumptions C74_reflexive.

Theorem C74_symmetric : forall a b, plain_value a -> plain_value b -> allequal a b = allequal b a.
Proof.
  intros a b Pa Pb. apply eq_true_iff_eq. rewrite !allequal_same by auto. split; apply same_sym.
Qed.
Print Assumptions C74_symmetric.

Theorem C74_transitive : forall a b c, plain_value a -> plain_value b -> plain_value c ->
  allequal a b = true -> allequal b c = true -> allequal a c = true.
Proof.
  intros a b c Pa Pb Pc H G. apply allequal_same in H, G; auto. apply allequal_same; auto. eapply same_trans; eauto.
Qed.
Print Assumptions C74_transitive.

Theorem C74_list_tuple : forall l, plain_value (VList l) -> allequal (VList l) (VTuple l) = true.
Proof.
  intros l P. apply allequal_same; auto. pose proof (same_refl _ P) as H.
  apply (same_seq_inv (VList l) (VList l) l l) in H; try (now left).
  apply (same_seq _ _ l l); auto.
Qed.
Print Assumptions C74_list_tuple.

Definition v1 : pv := VDict [(s_ "a", VList [VS (SInt 1); VS (SFlt FNan); VS (SFlt (FFin 1 (-1)%Z))]); (s_ "b", VS (SStr (s_ "x")))].
Definition v2 : pv := VDict [(s_ "b", VS (SStr (s_ "x"))); (s_ "a", VTuple [VS (SBool true); VS (SFlt FNan); VS (SCpx (FFin 2 (-2)%Z) (FZero false))])].
Example C74_ex : allequal v1 v2 = true /\ allequal v2 v1 = true /\ plain_value v1 /\ plain_value v2 /\
  allequal (VS (SFlt (FZero true))) (VS (SInt 0)) = false /\ allequal v1 (VDict [(s_ "a", VS SNone); (s_ "b", VS SNone)]) = false /\
  allequal (VDict [(s_ "a", VS SNone)]) (VDict [(s_ "a", VS SNone); (s_ "b", VS SNone)]) = false.
Proof.
  repeat split; try reflexivity; cbn; try discriminate;
    (constructor; [intros [H|[]]; discriminate|constructor; [intros []|constructor]]).
Qed.

(** Arrays are equal only to arrays of their own class. *)
Theorem C74_array_class : forall c l c' m, allequal (VArr c l) (VArr c' m) = true -> c = c'.
Proof. intros c l c' m H. cbn [allequal] in H. apply andb_true_iff in H as [H _]. now apply Nat.eqb_eq. Qed.
Print Assumptions C74_array_class.
(** With arrays it is not an equivalence: a number is equal to any array that
    holds only this number. *)
Theorem C74_arrays_refuted : exists a b c, allequal a b = true /\ allequal b c = true /\ allequal a c = false.
Proof.
  exists (VArr 0 [SInt 1; SInt 1]), (VS (SInt 1)), (VArr 0 [SInt 1]). repeat split; reflexivity.
Qed.
Print Assumptions C74_arrays_refuted.
