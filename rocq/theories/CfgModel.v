(** Model of /repo/caput/config.py: properties (lines 69-205), [Reader]
    (207-294) and the validated property types (320-524).

    A property object is a cell of a heap, because it remembers its name and
    key once they are found.  A class is its [__dict__] in order, restricted to
    names; an entry is a property object or something else.  The order of base
    classes ([inspect.getmro]) is given, most derived first.  The [__dict__] of
    an instance is a dictionary.

    Simplified: texts are byte strings ([str.upper] knows the ASCII letters
    only); a float is a rational number, an infinity or NaN; two zeros are one.
    Not modelled: the deprecation warnings, [utc_time] (it needs skyfield), the
    YAML loader with line numbers, [_finalise_config] (empty unless
    overridden), and unhashable or non-text keys. *)
From Coq Require Import String.
From Coq Require Import List Ascii Bool Arith ZArith QArith.
From Verif Require Import PyBase PyStr MemModel.
Import ListNotations.
Open Scope list_scope.
Open Scope nat_scope.

(** * Values *)
Inductive flt := FNan | FInf (neg : bool) | FFin (q : Q).

Inductive pyv :=
| VNone
| VBool (b : bool)
| VInt (z : Z)
| VFloat (f : flt)
| VStr (s : str)
| VList (l : list pyv)
| VTuple (l : list pyv)
| VDict (l : list (str * pyv)).

(** Truth of a value. *)
Definition truthy (v : pyv) : bool :=
  match v with
  | VNone => false
  | VBool b => b
  | VInt z => negb (z =? 0)%Z
  | VFloat (FFin q) => negb (Qeq_bool q 0)
  | VFloat _ => true
  | VStr s => negb (seqb s [])
  | VList l | VTuple l => match l with [] => false | _ => true end
  | VDict l => match l with [] => false | _ => true end
  end.

(** [<] of floats: false if one is NaN. *)
Definition flt_lt (a b : flt) : bool :=
  match a, b with
  | FNan, _ | _, FNan => false
  | FInf n, FInf m => n && negb m
  | FInf n, FFin _ => n
  | FFin _, FInf m => negb m
  | FFin p, FFin q => negb (Qle_bool q p)
  end.
Definition flt_eq (a b : flt) : bool :=
  match a, b with
  | FInf n, FInf m => Bool.eqb n m
  | FFin p, FFin q => Qeq_bool p q
  | _, _ => false
  end.

(** [==] of Python; numbers of all kinds compare by value. *)
Definition number (v : pyv) : option flt :=
  match v with
  | VBool b => Some (FFin (if b then 1 else 0))
  | VInt z => Some (FFin (inject_Z z))
  | VFloat f => Some f
  | _ => None
  end.
Fixpoint py_eq (a b : pyv) {struct a} : bool :=
  match number a, number b with
  | Some x, Some y => flt_eq x y
  | _, _ =>
    match a, b with
    | VNone, VNone => true
    | VStr s, VStr t => seqb s t
    | VList l, VList m | VTuple l, VTuple m =>
        (fix go l m := match l, m with
                       | [], [] => true
                       | x :: l', y :: m' => py_eq x y && go l' m'
                       | _, _ => false
                       end) l m
    | VDict l, VDict m =>
        (length l =? length m) &&
        (fix go l := match l with
                     | [] => true
                     | (k, x) :: l' => match dget k m with
                                       | Some y => py_eq x y
                                       | None => false
                                       end && go l'
                     end) l
    | _, _ => false
    end
  end.

(** * Properties *)
Record prop := mkprop {
  p_type : pyv -> res pyv;
  p_default : pyv;               (* [VNone]: no default *)
  p_key : option str;
  p_name : option str }.

(** [Property.__init__], lines 90-102. *)
Definition new_prop (default : pyv) (proptype : option (pyv -> res pyv)) (key : option str) : prop :=
  mkprop (match proptype with None => Ok | Some f => f end) default key None.

Inductive entry := EProp (id : nat) | EOther.
Definition cls := list (str * entry).
Definition heap := list prop.
Definition dict := list (str * pyv).

Definition no_prop : prop := mkprop Ok VNone None None.
Definition pget (h : heap) (id : nat) : prop := nth id h no_prop.
Fixpoint pset (h : heap) (id : nat) (p : prop) : heap :=
  match h, id with
  | [], _ => []
  | _ :: t, O => p :: t
  | q :: t, S n => q :: pset t n p
  end.

Definition with_name (p : prop) (n : option str) : prop := mkprop (p_type p) (p_default p) (p_key p) n.
Definition with_key (p : prop) (k : option str) : prop := mkprop (p_type p) (p_default p) k (p_name p).

(** The loops of [_set_propname], lines 169-181: the last match wins. *)
Definition find_name (mro : list cls) (id : nat) : option str :=
  fold_left (fun acc c => fold_left (fun acc (e : str * entry) =>
    match snd e with
    | EProp i => if i =? id then Some (fst e) else acc
    | EOther => acc
    end) c acc) (rev mro) None.
Definition set_propname (mro : list cls) (id : nat) (h : heap) : heap :=
  match p_name (pget h id) with
  | None => pset h id (with_name (pget h id) (find_name mro id))
  | Some _ => h
  end.

(** [Property._from_config], lines 133-167. *)
Definition conv_error (e : exn) : exn := match e with TypeError => CaputConfigError | _ => e end.
Definition from_config (mro : list cls) (id : nat) (config : dict) (h : heap) (d : dict)
  : heap * dict * option exn :=
  let h := set_propname mro id h in
  let p := pget h id in
  let h := match p_key p with None => pset h id (with_key p (p_name p)) | Some _ => h end in
  let p := pget h id in
  match p_key p, p_name p with
  | Some k, Some n =>
    match dget k config with
    | Some v => match p_type p v with
                | Ok v' => (h, dput n v' d, None)
                | Err e => (h, d, Some (conv_error e))
                end
    | None => (h, d, None)
    end
  | _, _ => (h, d, None)
  end.

(** * Reading a configuration: [Reader.read_config], lines 233-286 *)
(** The entries in the order of the two loops. *)
Definition decls (mro : list cls) : list (str * nat) :=
  flat_map (fun c => flat_map (fun (e : str * entry) =>
    match snd e with EProp i => [(fst e, i)] | EOther => [] end) c) (rev mro).

Fixpoint read_props (mro : list cls) (l : list (str * nat)) (config : dict) (h : heap) (d : dict)
    (keys : list (option str)) : heap * dict * option exn * list (option str) :=
  match l with
  | [] => (h, d, None, keys)
  | (_, id) :: l' =>
      match from_config mro id config h d with
      | (h', d', None) => read_props mro l' config h' d' (keys ++ [p_key (pget h' id)])
      | (h', d', Some e) => (h', d', Some e, keys)
      end
  end.

Inductive compare := CFalse | CTrue | CList (l : list str).
Definition mem (k : str) (l : list str) : bool := existsb (seqb k) l.
Definition some_keys (l : list (option str)) : list str :=
  flat_map (fun k => match k with Some s => [s] | None => [] end) l.

Definition unused (config : dict) (excluded : list str) : bool :=
  existsb (fun k => negb (mem k excluded)) (map fst config).
Definition missing (config : dict) (keys : list str) : bool :=
  existsb (fun k => negb (mem k (map fst config))) keys.

Definition read_config (mro : list cls) (config : dict) (cmp : compare) (use_defaults : bool)
    (h : heap) (d : dict) : heap * dict * option exn :=
  match read_props mro (decls mro) config h d [] with
  | (h, d, Some e, _) => (h, d, Some e)
  | (h, d, None, keys) =>
    let keys := some_keys keys in
    let bad := match cmp with
               | CFalse | CList [] => false
               | CTrue => unused config keys
               | CList l => unused config (keys ++ l)
               end in
    if bad then (h, d, Some CaputConfigError)
    else if negb use_defaults && missing config keys then (h, d, Some CaputConfigError)
    else (h, d, None)
  end.

(** Attribute access: the first class that has the name decides.
    [Property.__get__] and [__set__], lines 104-131; a property wins over the
    [__dict__] of the instance. *)
Fixpoint lookup (mro : list cls) (name : str) : option entry :=
  match mro with
  | [] => None
  | c :: r => match dget name c with Some e => Some e | None => lookup r name end
  end.
Definition prop_get (mro : list cls) (id : nat) (h : heap) (d : dict) : heap * res pyv :=
  let h := set_propname mro id h in
  let p := pget h id in
  let default := match p_default p with VNone => Ok VNone | v => p_type p v end in
  (h, match p_name p with
      | Some n => match dget n d with Some v => Ok v | None => default end
      | None => default
      end).
Definition prop_set (mro : list cls) (id : nat) (v : pyv) (h : heap) (d : dict) : heap * dict * option exn :=
  let h := set_propname mro id h in
  let p := pget h id in
  match p_type p v, p_name p with
  | Ok v', Some n => (h, dput n v' d, None)
  | Ok _, None => (h, d, None)
  | Err e, _ => (h, d, Some e)
  end.
Definition getattr (mro : list cls) (name : str) (h : heap) (d : dict) : heap * res pyv :=
  match lookup mro name with
  | Some (EProp id) => prop_get mro id h d
  | Some EOther => (h, match dget name d with Some v => Ok v | None => Ok VNone end)
  | None => (h, match dget name d with Some v => Ok v | None => Err AttributeError end)
  end.

(** * Validated types *)
(** [float_in_range], lines 320-353; [float] of a value that is not a number
    or a text that is one fails. *)
Definition to_float (parse : str -> option flt) (v : pyv) : res flt :=
  match v with
  | VBool b => Ok (FFin (if b then 1 else 0))
  | VInt z => Ok (FFin (inject_Z z))
  | VFloat f => Ok f
  | VStr s => match parse s with Some f => Ok f | None => Err ValueError end
  | _ => Err TypeError
  end.
Definition float_in_range (parse : str -> option flt) (start stop : flt) (v : pyv) : res pyv :=
  rbind (to_float parse v) (fun f =>
    if flt_lt f start || flt_lt stop f then Err CaputConfigError else Ok (VFloat f)).

(** [enum], lines 356-393: the property type, and the declaration. *)
Definition enum (options : list pyv) (v : pyv) : res pyv :=
  if negb (existsb (py_eq v) options) then Err CaputConfigError else Ok v.
Definition is_none (v : pyv) : bool := match v with VNone => true | _ => false end.
Definition enum_decl (options : list pyv) (default : pyv) : res prop :=
  if negb (is_none default) && negb (existsb (py_eq default) options) then Err ValueError
  else Ok (new_prop default (Some (enum options)) None).

(** [list_type], lines 396-465. *)
Inductive pytype := TBool | TInt | TFloat | TStr | TList | TTuple | TDict.
Definition isinstance (v : pyv) (t : pytype) : bool :=
  match v, t with
  | VBool _, (TBool | TInt) | VInt _, TInt | VFloat _, TFloat | VStr _, TStr
  | VList _, TList | VTuple _, TTuple | VDict _, TDict => true
  | _, _ => false
  end.
(** [type_]: [None], one type or a tuple of types. *)
Definition list_type (types : list pytype) (len maxlen : option Z) (v : pyv) : res pyv :=
  match v with
  | VList l | VTuple l =>
      let n := Z.of_nat (length l) in
      if match types with
         | [] => false
         | _ => existsb (fun x => negb (existsb (isinstance x) types)) l
         end then Err CaputConfigError
      else if match len with Some k => negb (k =? 0)%Z && negb (n =? k)%Z | None => false end
      then Err CaputConfigError
      else if match maxlen with Some k => negb (k =? 0)%Z && (k <? n)%Z | None => false end
      then Err CaputConfigError
      else Ok v
  | _ => Err CaputConfigError
  end.
Definition list_decl (types : list pytype) (len maxlen : option Z) (default : pyv) : res prop :=
  match truthy default, list_type types len maxlen default with
  | true, Err CaputConfigError => Err ValueError
  | true, Err e => Err e
  | _, _ => Ok (new_prop default (Some (list_type types len maxlen)) None)
  end.

(** [logging_config], lines 468-524. *)
Definition upper_char (c : ascii) : ascii :=
  let n := nat_of_ascii c in
  if (97 <=? n) && (n <=? 122) then ascii_of_nat (n - 32) else c.
Definition upper (s : str) : str := map upper_char s.
Definition loglevels : list str := map s_ ["DEBUG"; "INFO"; "WARNING"; "ERROR"; "NOTSET"]%string.
Fixpoint check_levels (l : list (str * pyv)) (acc : list (str * pyv)) : res (list (str * pyv)) :=
  match l with
  | [] => Ok acc
  | (k, VStr s) :: r =>
      if mem (upper s) loglevels then check_levels r (dput k (VStr (upper s)) acc) else Err ValueError
  | _ :: _ => Err AttributeError
  end.
Definition logging_config (v : pyv) : res pyv :=
  match v with
  | VStr s => rbind (check_levels [(s_ "root", VStr s)] []) (fun r => Ok (VDict r))
  | VDict l => rbind (check_levels l []) (fun r => Ok (VDict r))
  | _ => Err AttributeError      (* [config.__name__] in the message fails *)
  end.
