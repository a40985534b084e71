(** What the conversions of strings are to do. *)
From Coq Require Import String.
From Coq Require Import List Ascii Bool Arith.
From Verif Require Import PyBase PyStr TypModel.
Import ListNotations.
Open Scope list_scope.
Open Scope nat_scope.

(** [x] is somewhere inside [o], through collections. *)
Inductive inside (x : pyo) : pyo -> Prop :=
| in_self : inside x x
| in_list : forall l y, In y l -> inside x y -> inside x (OList l)
| in_tuple : forall l y, In y l -> inside x y -> inside x (OTuple l)
| in_named : forall l y, In y l -> inside x y -> inside x (ONamed l)
| in_set : forall l y, In y l -> inside x y -> inside x (OSet l)
| in_key : forall l k v, In (k, v) l -> inside x k -> inside x (ODict l)
| in_value : forall l k v, In (k, v) l -> inside x v -> inside x (ODict l).

Definition is_bytes (o : pyo) : Prop := (exists b, o = OBytes b) \/ exists l, o = OArrS l.
Definition no_bytes (o : pyo) : Prop := forall x, inside x o -> ~ is_bytes x.
Definition no_named (o : pyo) : Prop := forall x l, inside x o -> x <> ONamed l.
(** Sets and dictionaries hold equal elements or keys once. *)
Definition proper_obj (o : pyo) : Prop :=
  (forall l, inside (OSet l) o -> NoDup l) /\ (forall l, inside (ODict l) o -> NoDup (map fst l)).

Section Decode.
Variable decode : str -> option text.

(** Entry [(k, v)] is the last one for its key. *)
Definition last_for (k v : pyo) (l : list (pyo * pyo)) : Prop :=
  exists a b, l = a ++ (k, v) :: b /\ ~ In k (map fst b).

(** [r] is [o] with all byte strings turned into text and nothing else
    changed.  Elements of sets that become equal are one afterwards, and of
    entries whose keys become equal the last one stays. *)
Inductive converted : pyo -> pyo -> Prop :=
| cv_bytes : forall b t, decode b = Some t -> converted (OBytes b) (OStr t)
| cv_array : forall l ts, Forall2 (fun b t => ascii_text b = Some t) l ts -> converted (OArrS l) (OArrU ts)
| cv_list : forall l m, Forall2 converted l m -> converted (OList l) (OList m)
| cv_tuple : forall l m, Forall2 converted l m -> converted (OTuple l) (OTuple m)
| cv_set : forall l m, NoDup m ->
    (forall x, In x l -> exists y, In y m /\ converted x y) ->
    (forall y, In y m -> exists x, In x l /\ converted x y) -> converted (OSet l) (OSet m)
| cv_dict : forall l m e, Forall2 converted (map fst l) (map fst e) -> Forall2 converted (map snd l) (map snd e) ->
    NoDup (map fst m) -> (forall k v, In (k, v) m <-> last_for k v e) -> converted (ODict l) (ODict m)
| cv_str : forall t, converted (OStr t) (OStr t)
| cv_arru : forall l, converted (OArrU l) (OArrU l)
| cv_gen : converted OGen OGen
| cv_other : forall n, converted (OOther n) (OOther n).

(** Everything inside can be decoded. *)
Definition decodable (o : pyo) : Prop :=
  (forall b, inside (OBytes b) o -> decode b <> None) /\
  (forall l b, inside (OArrS l) o -> In b l -> ascii_text b <> None).
End Decode.

(** * Data types *)
(** The type strings of the leaves. *)
Fixpoint leaves (t : dtype) : list str :=
  match t with
  | Leaf s _ => [s]
  | Comp l => flat_map (fun i => match i with Gap _ => [] | Field _ t _ => leaves t end) l
  end.
(** The same type with other leaves. *)
Fixpoint map_leaves (f : str -> str) (t : dtype) : dtype :=
  match t with
  | Leaf s m => Leaf (f s) m
  | Comp l => Comp (map (fun i => match i with
                                  | Gap n => Gap n
                                  | Field name t shape => Field name (map_leaves f t) shape
                                  end) l)
  end.
(** No gaps, no shapes, no metadata, names given. *)
Fixpoint plain (t : dtype) : Prop :=
  match t with
  | Leaf s m => m = false
  | Comp l => l <> [] /\ (fix go l := match l with
                         | [] => True
                         | Gap _ :: _ => False
                         | Field name t shape :: r => name <> [] /\ shape = [] /\ plain t /\ go r
                         end) l
  end.

(** Type strings: byte order, kind, and a rest without further such codes. *)
Definition type_string (s : str) : Prop :=
  exists o k r, s = o :: k :: r /\ ~ In "|"%char (k :: r) /\ ~ In "<"%char (k :: r).
Definition kind_of (s : str) : option ascii := nth_error s 1.
Definition s2u (s : str) : str :=
  match s with
  | o :: k :: r => if ceqb o "|" && ceqb k "S" then "<"%char :: "U"%char :: r else s
  | _ => s
  end.
Definition u2s (s : str) : str :=
  match s with
  | o :: k :: r => if ceqb o "<" && ceqb k "U" then "|"%char :: "S"%char :: r else s
  | _ => s
  end.

(** Every compound type below the top has at least two entries. *)
Fixpoint wide (t : dtype) : Prop :=
  match t with
  | Leaf _ _ => True
  | Comp l => (fix go l := match l with
               | [] => True
               | Gap _ :: r => go r
               | Field _ t _ :: r => match t with Comp l' => 2 <= length l' | Leaf _ _ => True end /\ wide t /\ go r
               end) l
  end.
