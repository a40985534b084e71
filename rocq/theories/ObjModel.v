(** caput/util/objecttools.py: [allequal] (19-96) and [total_size] (99-157).

    Simplified: the scalars are Python's None, strings, booleans, integers,
    floats and complex numbers; [np.testing.assert_equal] is modelled on these
    branch by branch.  The keys of dictionaries are strings.  Arrays have one
    dimension and hold numbers; an array compared with a sequence that holds
    anything but numbers is unequal.  The object graph of [total_size] is given
    by a table; getattr and iteration run no code of their own, and the depth of
    the recursion is not limited. *)
From Coq Require Import String.
From Coq Require Import List Ascii Bool Arith ZArith.
From Verif Require Import PyBase PyStr MemModel.
Import ListNotations.
Open Scope list_scope.
Open Scope nat_scope.

(** * Scalars *)
(** A float is NaN, an infinity, a zero or [m * 2^e] with [m] not zero; the
    booleans say whether the sign bit is set. *)
Inductive flt := FNan | FInf (neg : bool) | FZero (neg : bool) | FFin (m : Z) (e : Z).
Inductive scalar := SNone | SStr (s : str) | SBool (b : bool) | SInt (z : Z) | SFlt (f : flt) | SCpx (re im : flt).

(** [==] of [m1 * 2^e1] and [m2 * 2^e2]. *)
Definition dyeq (m1 e1 m2 e2 : Z) : bool :=
  let e := Z.min e1 e2 in (m1 * 2 ^ (e1 - e) =? m2 * 2 ^ (e2 - e))%Z.
(** [==] of floats: zeros are equal, NaN is not equal to anything. *)
Definition flt_eq (f g : flt) : bool :=
  match f, g with
  | FInf a, FInf b => Bool.eqb a b
  | FZero _, FZero _ => true
  | FFin m e, FFin m' e' => dyeq m e m' e'
  | _, _ => false
  end.
Definition flt_of_int (z : Z) : flt := if (z =? 0)%Z then FZero false else FFin z 0.   (* exact, only for comparing *)
Definition int_of_bool (b : bool) : Z := if b then 1%Z else 0%Z.
(** The real and the imaginary part of a number. *)
Definition num_parts (s : scalar) : option (flt * flt) :=
  match s with
  | SBool b => Some (flt_of_int (int_of_bool b), FZero false)
  | SInt z => Some (flt_of_int z, FZero false)
  | SFlt f => Some (f, FZero false)
  | SCpx a b => Some (a, b)
  | _ => None
  end.
(** Python's [==]. *)
Definition py_eq (a b : scalar) : bool :=
  match a, b with
  | SNone, SNone => true
  | SStr s, SStr t => seqb s t
  | _, _ => match num_parts a, num_parts b with
            | Some (r, i), Some (r', i') => flt_eq r r' && flt_eq i i'
            | _, _ => false
            end
  end.

Definition fnan (f : flt) : bool := match f with FNan => true | _ => false end.
(** [np.isnan]; [None] for TypeError.  Integers of more than 64 bits are objects. *)
Definition isnan (s : scalar) : option bool :=
  match s with
  | SNone | SStr _ => None
  | SBool _ => Some false
  | SInt z => if ((- 2 ^ 63 <=? z) && (z <? 2 ^ 64))%Z then Some false else None
  | SFlt f => Some (fnan f)
  | SCpx a b => Some (fnan a || fnan b)
  end.
(** [np.signbit]; not defined for complex numbers. *)
Definition signbit (s : scalar) : option bool :=
  match s with
  | SBool _ => Some false
  | SInt z => Some (z <? 0)%Z
  | SFlt (FInf b) | SFlt (FZero b) => Some b
  | SFlt (FFin m _) => Some (m <? 0)%Z
  | SFlt FNan => Some false
  | _ => None
  end.
Definition isscalar (s : scalar) : bool := match s with SNone => false | _ => true end.
Definition is_complex (s : scalar) : bool := match s with SCpx _ _ => true | _ => false end.

(** [np.testing.assert_equal], from the test for scalars on. *)
Definition sc_tail (actual desired : scalar) : bool :=
  if negb (Bool.eqb (isscalar desired) (isscalar actual)) then false
  else match isnan desired, isnan actual with
       | Some true, Some true => true
       | Some _, Some _ =>
           if py_eq desired (SInt 0) && py_eq actual (SInt 0) then
             match signbit desired, signbit actual with
             | Some b, Some b' => if negb (Bool.eqb b b') then false else py_eq desired actual
             | _, _ => py_eq desired actual
             end
           else py_eq desired actual
       | _, _ => py_eq desired actual
       end.
Definition re (s : scalar) : scalar := match s with SCpx a _ => SFlt a | _ => s end.
Definition im (s : scalar) : scalar := match s with SCpx _ b => SFlt b | _ => SInt 0 end.
Definition sc_eq (actual desired : scalar) : bool :=
  if is_complex actual || is_complex desired then
    if sc_tail (re actual) (re desired) && sc_tail (im actual) (im desired) then sc_tail actual desired else false
  else sc_tail actual desired.

(** * Nested values *)
Inductive pv :=
| VS (s : scalar)
| VList (l : list pv)
| VTuple (l : list pv)
| VDict (l : list (str * pv))
| VArr (cls : nat) (l : list scalar).      (* an array, by its class *)

(** One element of [assert_array_equal]: the sign of zeros does not matter. *)
Definition elem_eq (a b : scalar) : bool :=
  match isnan a, isnan b with
  | Some true, Some true => true
  | _, _ => py_eq a b
  end.
Fixpoint zip_eq (l m : list scalar) : bool :=
  match l, m with
  | [], [] => true
  | x :: l, y :: m => elem_eq x y && zip_eq l m
  | _, _ => false
  end.
Fixpoint numbers (l : list pv) : option (list scalar) :=
  match l with
  | [] => Some []
  | VS s :: r => match num_parts s, numbers r with Some _, Some r' => Some (s :: r') | _, _ => None end
  | _ :: _ => None
  end.
Definition seq_arr (l : list pv) (m : list scalar) : bool :=
  match numbers l with Some l' => zip_eq l' m | None => false end.

(** [allequal] and [_assert_equal], lines 19-96. *)
Fixpoint allequal (a b : pv) : bool :=
  let seq := fix go (l m : list pv) : bool :=
    match l, m with
    | [], _ => true
    | x :: l, y :: m => allequal x y && go l m
    | _ :: _, [] => false
    end in
  match a, b with
  | VDict l, VDict m =>
      (length l =? length m) &&
      (fix go (l : list (str * pv)) : bool :=
         match l with
         | [] => true
         | (k, v) :: r => match dget k m with
                          | None => false
                          | Some w => allequal v w && go r
                          end
         end) l
  | VDict _, _ | _, VDict _ => false
  | VList l, VList m | VList l, VTuple m | VTuple l, VList m | VTuple l, VTuple m => (length l =? length m) && seq l m
  | VArr c l, VArr c' m => (c =? c') && zip_eq l m
  | VArr _ l, VS s => forallb (fun x => elem_eq x s) l     (* a scalar is compared with every element *)
  | VS s, VArr _ l => forallb (fun x => elem_eq s x) l
  | VArr _ m, VList l | VArr _ m, VTuple l | VList l, VArr _ m | VTuple l, VArr _ m => seq_arr l m
  | VS s, VS s' => sc_eq s s'
  | VS _, _ | _, VS _ => false
  end.

(** * Sizes *)
Inductive okind := KModule | KLeaf | KGroup (l : list nat).   (* a sequence, or the keys and values of a mapping *)
(** [__slots__]: a single name, or several. *)
Inductive sdecl := DOne (name : str) | DMany (names : list str).
Record obj := mkobj {
  osize : nat;                     (* [getsizeof] *)
  okid : okind;
  odict : option nat;              (* [vars(x)] *)
  oslots : option sdecl;           (* [x.__slots__], that of the most derived class *)
  oattrs : list (str * nat) }.     (* the attributes kept in slots, of all classes, by their actual names *)

(** Lines 144-149: iterating over a string gives its characters. *)
Definition slot_names (d : sdecl) : list str :=
  match d with DOne s => map (fun c => [c]) s | DMany l => l end.
Definition slot_values (o : obj) : list nat :=
  match oslots o with
  | None => []
  | Some d => flat_map (fun n => match dget n (oattrs o) with Some i => [i] | None => [] end) (slot_names d)
  end.

Section Size.
Variable h : nat -> obj.

(** [sizeof], lines 122-155: the set of seen objects, and the size or an
    exception.  [None]: out of fuel. *)
Fixpoint sizeof (fuel : nat) (seen : list nat) (x : nat) : option (list nat * res nat) :=
  match fuel with
  | O => None
  | S f =>
      let sum := fix go (seen : list nat) (l : list nat) : option (list nat * res nat) :=
        match l with
        | [] => Some (seen, Ok 0)
        | y :: r =>
            match sizeof f seen y with
            | Some (seen, Ok n) => match go seen r with
                                   | Some (seen, Ok k) => Some (seen, Ok (n + k))
                                   | r => r
                                   end
            | r => r
            end
        end in
      (* [sum_], lines 116-120 *)
      let sum_ := fun seen l => match sum seen l with
                                | Some (seen, Err TypeError) => Some (seen, Ok 0)
                                | r => r
                                end in
      match okid (h x) with
      | KModule => Some (seen, Err TypeError)
      | _ =>
          if existsb (Nat.eqb x) seen then Some (seen, Ok 0)
          else
            let seen := x :: seen in
            match (match okid (h x) with KGroup l => sum_ seen l | _ => Some (seen, Ok 0) end) with
            | Some (seen, Ok n1) =>
                match (match odict (h x) with Some d => sizeof f seen d | None => Some (seen, Ok 0) end) with
                | Some (seen, Ok n2) =>
                    match (match oslots (h x) with Some _ => sum_ seen (slot_values (h x)) | None => Some (seen, Ok 0) end) with
                    | Some (seen, Ok n3) => Some (seen, Ok (osize (h x) + n1 + n2 + n3))
                    | r => r
                    end
                | r => r
                end
            | r => r
            end
      end
  end.
Definition total_size (n : nat) (x : nat) : option (res nat) := option_map snd (sizeof (S n) [] x).
End Size.
