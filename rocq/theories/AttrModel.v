(** Model of [copyattrs], /repo/caput/memdata/_memh5.py lines 2341-2428.

    Targets: a dictionary in memory, h5py attributes, zarr (version 2)
    attributes.  What the file libraries keep of a value is written down from
    their documentation: h5py stores numbers that fit 64 bits, strings without
    NUL characters and one-dimensional arrays of one kind; zarr stores what the
    json module can write.  Simplified: byte strings are ASCII, np.array of a
    list that mixes kinds other than int with str is outside the model, and so
    is writing string arrays to h5py without conversion of strings. *)
From Coq Require Import String.
From Coq Require Import List Ascii Bool Arith ZArith.
From Verif Require Import PyBase PyStr MemModel JsonModel.
Import ListNotations.
Open Scope list_scope.
Open Scope nat_scope.

Inductive target := Mem | H5 | Zarr.

(** Python's order of strings. *)
Fixpoint sleb (a b : str) : bool :=
  match a, b with
  | [], _ => true
  | _ :: _, [] => false
  | x :: a, y :: b =>
      if nat_of_ascii x <? nat_of_ascii y then true
      else if nat_of_ascii y <? nat_of_ascii x then false else sleb a b
  end.

(** Line 2358. *)
Definition json_prefix : str := s_ "!!_memh5_json:".

Definition int64 (z : Z) : bool := (- 2 ^ 63 <=? z)%Z && (z <? 2 ^ 63)%Z.
Definition is_int (v : av) := match v with AInt z => int64 z | _ => false end.
Definition is_bool (v : av) := match v with ABool _ => true | _ => false end.
Definition is_float (v : av) := match v with AFloat _ => true | _ => false end.
Definition is_str (v : av) := match v with AStr _ => true | _ => false end.
Definition is_object (v : av) := match v with ANone | ADict _ | ADate _ => true | _ => false end.
Definition as_str (v : av) : av := match v with AInt z => AStr (dec z) | _ => v end.
(** [np.array(l)] on its way into h5py attributes; an array of objects has no
    HDF5 type. *)
Definition np_array (l : list av) : res av :=
  if forallb is_int l || forallb is_bool l || forallb is_float l || forallb is_str l then Ok (AArr l)
  else if forallb (fun v => is_int v || is_str v) l then Ok (AArr (map as_str l))
  else if existsb is_object l then Err TypeError
  else Err OtherException.

(** /repo/caput/util/typeutils.py lines 24-59, [bytes_to_unicode]. *)
Fixpoint bytes_to_unicode (v : av) : av :=
  match v with
  | ABytes s => AStr s
  | AList l => AList (map bytes_to_unicode l)
  | AArr l => AArr (map (fun x => match x with ABytes s => AStr s | _ => x end) l)
  | ADict kv => ADict (map (fun '(k, x) => (k, bytes_to_unicode x)) kv)
  | _ => v
  end.

(** Lines 2360-2379. *)
Definition map_unicode (convert_strings : bool) (t : target) (v : av) : res av :=
  if negb convert_strings then Ok v
  else match t with
       | H5 => match v with AList l => np_array l | _ => Ok v end
       | Mem | Zarr => Ok (bytes_to_unicode v)
       end.

(** Lines 2380-2421. *)
Definition map_json (t : target) (v : av) : res av :=
  let special := match t, v with
                 | Zarr, (ADict _ | AArr _ | ADate _) => true
                 | H5, (ADict _ | ADate _) => true
                 | _, _ => false
                 end in
  if special then rbind (enc v) (fun s => Ok (AStr (json_prefix ++ s)))
  else match v with
       | AStr s => if startswith json_prefix s then loads (skipn (length json_prefix) s) else Ok v
       | _ => Ok v
       end.

(** Lines 2426-2427: [val.item()]. *)
Definition item (v : av) : av := match v with ANpInt z => AInt z | _ => v end.

Definition nul : ascii := ascii_of_nat 0.
Definition no_nul (s : str) : bool := negb (existsb (ceqb nul) s).
(** [a2[key] = val]: what is read back afterwards. *)
Definition h5_set (v : av) : res av :=
  match v with
  | AStr s => if no_nul s then Ok v else Err ValueError
  | AInt z | ANpInt z => if int64 z then Ok (ANpInt z) else Err TypeError
  | ABool _ | AFloat _ | ABytes _ => Ok v
  | AArr l => if forallb (fun x => match x with AStr s => no_nul s | _ => true end) l then Ok v else Err ValueError
  | ANone | ADict _ | ADate _ => Err TypeError
  | AList l => np_array l
  end.
Fixpoint json_std (v : av) : bool :=
  match v with
  | ANone | ABool _ | AInt _ | AFloat _ | AStr _ => true
  | AList l => forallb json_std l
  | ADict kv => forallb (fun '(_, x) => json_std x) kv
  | ABytes _ | ADate _ | ANpInt _ | AArr _ => false
  end.
Definition set (t : target) (v : av) : res av :=
  match t with
  | Mem => Ok v
  | H5 => h5_set v
  | Zarr => if json_std v then Ok v else Err TypeError
  end.

Definition copy_value (convert_strings : bool) (t : target) (v : av) : res av :=
  rbind (map_unicode convert_strings t v) (fun v =>
  rbind (map_json t v) (fun v =>
  set t (item v))).

(** Lines 2423-2428: [for key in sorted(a1)]. *)
Definition copyattrs (a1 : list (str * av)) (t : target) (convert_strings : bool) (a2 : list (str * av))
  : res (list (str * av)) :=
  fold_left (fun acc key => rbind acc (fun a2 =>
     match dget key a1 with
     | Some v => rbind (copy_value convert_strings t v) (fun w => Ok (dput key w a2))
     | None => Err KeyError
     end))
   (py_sorted sleb (map fst a1)) (Ok a2).
