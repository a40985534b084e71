(** What survives being written as JSON and read back. *)
From Coq Require Import String.
From Coq Require Import List Ascii Bool Arith ZArith NArith.
From Verif Require Import PyBase PyStr MemModel JsonModel.
Import ListNotations.
Open Scope list_scope.

(** The reprs of Python floats, and what json writes for those that are not
    finite. *)
Definition Digits (s : str) : Prop := Forall (fun c => 48 <= nat_of_ascii c <= 57) s.
Definition IntText (s : str) : Prop :=
  s = s_ "0" \/ exists d ds, s = d :: ds /\ Digits s /\ d <> "0"%char.
Definition FracText (s : str) : Prop := s = [] \/ exists ds, s = dot :: ds /\ ds <> [] /\ Digits ds.
Definition ExpText (s : str) : Prop :=
  s = [] \/ exists sg ds, s = "e"%char :: sg ++ ds /\ In sg [[]; ["+"%char]; ["-"%char]] /\ ds <> [] /\ Digits ds.
Inductive FloatText : str -> Prop :=
| ft_nan : FloatText (s_ "NaN")
| ft_inf : FloatText (s_ "Infinity")
| ft_neg_inf : FloatText (s_ "-Infinity")
| ft_finite : forall sg ip fr ex, In sg [[]; ["-"%char]] -> IntText ip -> FracText fr -> ExpText ex ->
    fr <> [] \/ ex <> [] -> FloatText (sg ++ ip ++ fr ++ ex).

(** A Python value: the text of a float is a float, the keys of a dictionary
    are different, the elements of an array are no containers. *)
Fixpoint wf (v : av) : Prop :=
  match v with
  | AFloat lit => FloatText lit
  | AList l => (fix all (l : list av) : Prop := match l with [] => True | x :: r => wf x /\ all r end) l
  | AArr l => (fix all (l : list av) : Prop := match l with [] => True | x :: r => wf x /\ all r end) l
  | ADict kv => NoDup (map fst kv) /\
      (fix all (l : list (str * av)) : Prop := match l with [] => True | (_, x) :: r => wf x /\ all r end) kv
  | _ => True
  end.

(** What it is read back as: byte strings and dates as strings, arrays as lists
    or, with a single element, as that element. *)
Fixpoint plain (v : av) : av :=
  match v with
  | ABytes s => AStr s
  | ADate s => AStr s
  | AList l => AList (map plain l)
  | ADict kv => ADict (map (fun '(k, x) => (k, plain x)) kv)
  | AArr [x] => plain x
  | AArr l => AList (map plain l)
  | _ => v
  end.

(** The values of the property: strings, numbers and nested dictionaries and
    lists of them. *)
Fixpoint jsonlike (v : av) : Prop :=
  match v with
  | ANone | ABool _ | AInt _ | AStr _ => True
  | AFloat lit => FloatText lit
  | AList l => (fix all (l : list av) : Prop := match l with [] => True | x :: r => jsonlike x /\ all r end) l
  | ADict kv => NoDup (map fst kv) /\
      (fix all (l : list (str * av)) : Prop := match l with [] => True | (_, x) :: r => jsonlike x /\ all r end) kv
  | _ => False
  end.
