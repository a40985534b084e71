(** Specification of an LRU cache in terms of the history of calls (C08). *)
From Coq Require Import List Arith Bool.
From Verif Require Import LruModel.
Import ListNotations.

Section S.
  Variable V : Type.
  Variable nbytes : V -> option nat.
  Variable maxsize : nat.

  (** A call to store [v] is accepted when it is an array that fits. *)
  Definition fits (v : V) : bool :=
    match nbytes v with Some s => s <=? maxsize | None => false end.

  (** What the history says is stored under [k] (later calls win). *)
  Definition stored (h : list (op V)) (k : nat) : option V :=
    fold_left (fun acc o =>
      match o with
      | Set_ j v => if (j =? k) && fits v then Some v else acc
      | Del j => if j =? k then None else acc
      | Get _ => acc
      end) h None.

  (** [k] was used by call number [i]. *)
  Definition used_at (h : list (op V)) (i k : nat) : Prop :=
    nth_error h i = Some (Get k) \/ exists v, nth_error h i = Some (Set_ k v) /\ fits v = true.

  (** Every use of [a] was before some use of [b]. *)
  Definition LessRecent (h : list (op V)) (a b : nat) : Prop :=
    exists j, used_at h j b /\ forall i, used_at h i a -> i < j.
End S.
