(** Model of /repo/caput/util/typeutils.py: [bytes_to_unicode] (lines 24-59)
    and the dtype functions (62-153, 198-248).

    Simplified: text is a list of code points, [bytes.decode] an arbitrary
    partial function; the elements of an array of byte strings are decoded as
    ASCII, as numpy does.  Equality in sets and dictionaries is equality of the
    objects.  A dtype is a leaf, given by its type string [dt.str], or a compound
    of named fields, with shapes and gaps.  Not modelled: titles of fields,
    overlapping fields, the byte order helpers. *)
From Coq Require Import String.
From Coq Require Import List Ascii Bool Arith.
From Verif Require Import PyBase PyStr.
Import ListNotations.
Open Scope list_scope.
Open Scope nat_scope.

(** * Objects *)
Definition text := list nat.
Inductive pyo :=
| OBytes (b : str)
| OStr (t : text)
| OArrS (l : list str)         (* array of dtype kind S *)
| OArrU (l : list text)        (* array of dtype kind U *)
| OList (l : list pyo)
| OTuple (l : list pyo)
| ONamed (l : list pyo)        (* an instance of a namedtuple class *)
| OSet (l : list pyo)
| ODict (l : list (pyo * pyo))
| OGen                         (* a generator *)
| OOther (n : nat).            (* anything else *)

Definition pair_dec {A B} (da : forall a b : A, {a = b} + {a <> b}) (db : forall a b : B, {a = b} + {a <> b})
  : forall p q : A * B, {p = q} + {p <> q}.
Proof. decide equality. Defined.
Fixpoint pyo_dec (a b : pyo) {struct a} : {a = b} + {a <> b}.
Proof.
  decide equality; auto using ascii_dec, Nat.eq_dec, (list_eq_dec ascii_dec), (list_eq_dec Nat.eq_dec),
    (list_eq_dec (list_eq_dec ascii_dec)), (list_eq_dec (list_eq_dec Nat.eq_dec)).
  - exact (list_eq_dec pyo_dec l l0).
  - exact (list_eq_dec pyo_dec l l0).
  - exact (list_eq_dec pyo_dec l l0).
  - exact (list_eq_dec pyo_dec l l0).
  - exact (list_eq_dec (pair_dec pyo_dec pyo_dec) l l0).
Defined.

(** [set.add] and [dict.__setitem__]. *)
Fixpoint oadd (x : pyo) (l : list pyo) : list pyo :=
  match l with
  | [] => [x]
  | y :: r => if pyo_dec x y then y :: r else y :: oadd x r
  end.
Fixpoint oput (k v : pyo) (l : list (pyo * pyo)) : list (pyo * pyo) :=
  match l with
  | [] => [(k, v)]
  | (k', v') :: r => if pyo_dec k k' then (k', v) :: r else (k', v') :: oput k v r
  end.
Definition mkset (l : list pyo) : list pyo := fold_left (fun s x => oadd x s) l [].
Definition mkdict (l : list (pyo * pyo)) : list (pyo * pyo) := fold_left (fun d kv => oput (fst kv) (snd kv) d) l [].

(** [ndarray.astype(str)] of one element. *)
Definition ascii_text (b : str) : option text :=
  if forallb (fun c => nat_of_ascii c <? 128) b then Some (map nat_of_ascii b) else None.

Section Decode.
Variable decode : str -> option text.      (* [bytes.decode("utf8")] *)

Fixpoint astype_str (l : list str) : res (list text) :=
  match l with
  | [] => Ok []
  | b :: r => match ascii_text b with
              | Some t => rbind (astype_str r) (fun r' => Ok (t :: r'))
              | None => Err ValueError
              end
  end.

(** [bytes_to_unicode], lines 24-59. *)
Fixpoint b2u (o : pyo) : res pyo :=
  let conv_list := fix go (l : list pyo) : res (list pyo) :=
    match l with
    | [] => Ok []
    | x :: r => rbind (b2u x) (fun x' => rbind (go r) (fun r' => Ok (x' :: r')))
    end in
  match o with
  | OBytes b => match decode b with Some t => Ok (OStr t) | None => Err ValueError end
  | OArrS l => rbind (astype_str l) (fun l' => Ok (OArrU l'))
  | OList l => rbind (conv_list l) (fun l' => Ok (OList l'))
  | OTuple l => rbind (conv_list l) (fun l' => Ok (OTuple l'))
  | ONamed l => match l with
                | [_] => Ok (ONamed [OGen])      (* the generator becomes the only field *)
                | _ => Err TypeError
                end
  | OSet l => rbind (conv_list l) (fun l' => Ok (OSet (mkset l')))
  | ODict l =>
      rbind ((fix go (l : list (pyo * pyo)) : res (list (pyo * pyo)) :=
        match l with
        | [] => Ok []
        | (k, v) :: r => rbind (b2u k) (fun k' => rbind (b2u v) (fun v' => rbind (go r) (fun r' => Ok ((k', v') :: r'))))
        end) l) (fun l' => Ok (ODict (mkdict l')))
  | _ => Ok o
  end.
End Decode.

(** * Data types *)
(** [Leaf] carries [dt.str] and whether there is metadata.  A gap of a compound
    type is given by its number of bytes; a field has a shape ([[]]: none). *)
Inductive dtype :=
| Leaf (s : str) (meta : bool)
| Comp (l : list item)
with item :=
| Gap (n : str)
| Field (name : str) (t : dtype) (shape : list nat).

(** [dt.descr]. *)
Inductive dty :=
| TStr (s : str)
| TMeta (s : str)                 (* [(str, metadata)] *)
| TList (l : list (str * dty * list nat)).

Fixpoint descr_of (t : dtype) : dty :=
  match t with
  | Leaf s false => TStr s
  | Leaf s true => TMeta s
  | Comp l => TList (map (fun i => match i with
                                   | Gap n => ([], TStr (s_ "|V" ++ n), [])
                                   | Field name t shape => (name, descr_of t, shape)
                                   end) l)
  end.

(** [str.replace] with an old part of two characters. *)
Fixpoint replace2 (a b : ascii) (new : str) (s : str) : str :=
  match s with
  | x :: ((y :: r) as s') => if ceqb x a && ceqb y b then new ++ replace2 a b new r else x :: replace2 a b new s'
  | _ => s
  end.

(** The decimal digits, for the default names of fields. *)
Fixpoint digits (fuel n : nat) (acc : str) : str :=
  match fuel with
  | O => acc
  | S f => let acc := ascii_of_nat (48 + n mod 10) :: acc in
           if n / 10 =? 0 then acc else digits f (n / 10) acc
  end.
Definition default_name (i : nat) : str := "f"%char :: digits (S i) i [].

Section Convert.
Variables (fa fb : ascii) (to : str).

(** [_conv], lines 127-132, and [_iter_conv], 135-147: the shape of a field is
    not passed on. *)
Definition conv_str (s : str) : str := replace2 fa fb to s.
Fixpoint iter_conv (t : dty) : dty :=
  match t with
  | TStr s | TMeta s => TStr (conv_str s)
  | TList l => TList (map (fun x => match x with (name, t, _) => (name, iter_conv t, []) end) l)
  end.
(** [np.dtype] of such a description: fields without a name get one. *)
Fixpoint mkdtype (t : dty) : dtype :=
  match t with
  | TStr s | TMeta s => Leaf s false
  | TList l => Comp ((fix go (i : nat) (l : list (str * dty * list nat)) : list item :=
      match l with
      | [] => []
      | (name, t, shape) :: r =>
          Field (match name with [] => default_name i | _ => name end) (mkdtype t) shape :: go (S i) r
      end) 0 l)
  end.
(** Lines 149-153.  The string of a compound type without fields is of kind V. *)
Definition convert_dtype (dt : dtype) : dtype :=
  match dt with
  | Leaf s _ => Leaf (conv_str s) false
  | Comp [] => Leaf (conv_str (s_ "|V0")) false
  | Comp _ => mkdtype (iter_conv (descr_of dt))
  end.
End Convert.

Definition dtype_to_unicode : dtype -> dtype := convert_dtype "|"%char "S"%char (s_ "<U").
Definition dtype_to_bytestring : dtype -> dtype := convert_dtype "<"%char "U"%char (s_ "|S").

(** [has_kind], lines 198-232. *)
Definition second (s : str) : res ascii := match s with _ :: k :: _ => Ok k | _ => Err IndexError end.
Fixpoint kind_in (kind : ascii) (t : dty) : res bool :=
  match t with
  | TStr s => rbind (second s) (fun k => Ok (ceqb k kind))
  | TMeta s => rbind (second s) (fun k => Ok (ceqb k kind))   (* else compares the metadata *)
  | TList l =>
      (fix go (l : list (str * dty * list nat)) : res bool :=
         match l with
         | [] => Ok false
         | (_, t, _) :: r =>
             rbind (kind_in kind t) (fun b =>
             if b then Ok true
             else match t with
                  | TList (_ :: _ :: _) => go r          (* [type_[1]] is a tuple *)
                  | TList _ => Err IndexError
                  | _ => go r
                  end)
         end) l
  end.
Definition has_kind (dt : dtype) (kind : ascii) : res bool :=
  match dt with
  | Leaf s _ => rbind (second s) (fun k => Ok (ceqb k kind))
  | Comp [] => Ok (ceqb "V"%char kind)
  | Comp _ => kind_in kind (descr_of dt)
  end.
