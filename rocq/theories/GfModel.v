(** Model of distributed groups in files, /repo/caput/memdata/_memh5.py:
    [_distributed_group_to_file] (lines 2749-2834), [_distributed_group_from_file]
    (lines 2837-2961) and the part of [MemGroup.to_file] (lines 627-680) that
    calls the first.

    All ranks hold a tree of the same form (its groups and datasets are made by
    collective calls); attributes and the contents of common datasets may
    differ from rank to rank.  The datasets are read and written as in
    NioModel, attributes are copied as in AttrModel.  Simplified: the group is
    a root group and the file is new (mode "w"); copying it by
    [deep_group_copy], whose paths and order are modelled in CopyModel, is done
    here by recursion over the tree, keys sorted; datasets are addressed by
    their location; chunks are left out. *)
From Coq Require Import String.
From Coq Require Import List Ascii Bool Arith ZArith.
From Verif Require Import PyBase PyStr MemModel JsonModel AttrModel PartModel SliceModel NioModel.
Import ListNotations.
Open Scope list_scope.
Open Scope nat_scope.

(** Elements; numpy types are numbers, two of which hold texts. *)
Inductive el := Num (z : Z) | Txt (s : str).
Definition ty_unicode : nat := 0.
Definition ty_bytes : nat := 1.
Definition attrs := list (str * av).

Inductive gdata := Common (v : nat -> dset el) | Distr (a : dist el).
Inductive gnode := GSet (d : gdata) (a : nat -> attrs) | GGrp (a : nat -> attrs) (kids : list (str * gnode)).
Inductive fnode := FSet (d : dset el) (a : attrs) | FGrp (a : attrs) (kids : list (str * fnode)).

Record wopts := {
  w_format : fformat; w_convert : bool; w_convert_attrs : bool; w_hints : bool;
  w_h5mpi : bool; w_tn : Z; w_td : Z }.
Definition target_of (f : fformat) : target := match f with HDF5 => H5 | _ => AttrModel.Zarr end.

(** Indices of an array. *)
Fixpoint all_indices (shape : list nat) : list (list nat) :=
  match shape with
  | [] => [[]]
  | n :: shape => flat_map (fun x => map (cons x) (all_indices shape)) (seq 0 n)
  end.
Definition ascii_el (x : el) : bool :=
  match x with Txt s => forallb (fun c => nat_of_ascii c <? 128) s | Num _ => true end.

(** caput/util/typeutils.py lines 274-332. *)
Definition ensure_bytestring (d : dset el) : res (dset el) :=
  if d_type d =? ty_unicode then
    if forallb (fun i => ascii_el (d_data d i)) (all_indices (d_shape d))
    then Ok (mkdset (d_shape d) ty_bytes (d_data d) (d_comp d))
    else Err ValueError
  else Ok d.
Definition ensure_unicode (d : dset el) : dset el :=
  if d_type d =? ty_bytes then mkdset (d_shape d) ty_unicode (d_data d) (d_comp d) else d.

Definition el_zero : el := Num 0.

(** Lines 2531-2586 for the first step: what rank 0 puts into the file, and
    whether the dataset is to be written in the second step.  [dset[slice(None)]]
    of an array without axes is an IndexError; h5py has no type for numpy's
    unicode strings. *)
Definition prepare (o : wopts) (d : gdata) : res (dset el * bool) :=
  match d with
  | Distr a =>
      match w_format o with
      | HDF5 => if a_type a =? ty_unicode then Err TypeError
                else Ok (mkdset (a_gshape a) (a_type a) (fun _ => el_zero) (a_comp a), true)
      | _ => Ok (mkdset (a_gshape a) (a_type a) (fun _ => el_zero) (a_comp a), true)
      end
  | Common v =>
      let d := v 0 in
      match d_shape d with
      | [] => Err IndexError
      | _ =>
          if w_convert o then rbind (ensure_bytestring d) (fun d => Ok (d, false))
          else if d_type d =? ty_unicode then Err TypeError
          else Ok (d, false)
      end
  end.

(** Lines 2774-2781.  An int stored by h5py is read as a numpy int. *)
Definition dist_file : str := s_ "__memh5_distributed_file".
Definition dist_dset : str := s_ "__memh5_distributed_dset".
Definition dist_axis : str := s_ "__memh5_distributed_axis".
Definition stored_int (f : fformat) (z : Z) : av := match f with HDF5 => ANpInt z | _ => AInt z end.
Definition dset_hints (o : wopts) (d : gdata) (a : attrs) : attrs :=
  if w_hints o then
    match d with
    | Common _ => dput dist_dset (ABool false) a
    | Distr x => dput dist_axis (stored_int (w_format o) (a_axis x)) (dput dist_dset (ABool true) a)
    end
  else a.
Definition group_hints (o : wopts) (root : bool) (a : attrs) : attrs :=
  if w_hints o && root then dput dist_file (ABool true) a else a.

Definition by_key {X} (l : list (str * X)) : list (str * X) :=
  py_sorted (fun x y => sleb (fst x) (fst y)) l.
Fixpoint sequence {X} (l : list (str * res X)) : res (list (str * X)) :=
  match l with
  | [] => Ok []
  | (k, r) :: l => rbind r (fun x => rbind (sequence l) (fun t => Ok ((k, x) :: t)))
  end.

(** Lines 2783-2796: rank 0 makes the file.  With it come the locations of the
    datasets that are distributed. *)
Fixpoint first_step (o : wopts) (root : bool) (n : gnode) : res (fnode * list (list str)) :=
  match n with
  | GSet d a =>
      rbind (prepare o d) (fun '(x, later) =>
      rbind (copyattrs (a 0) (target_of (w_format o)) (w_convert_attrs o) []) (fun a =>
      Ok (FSet x (dset_hints o d a), if later then [[]] else [])))
  | GGrp a kids =>
      rbind (copyattrs (a 0) (target_of (w_format o)) (w_convert_attrs o) []) (fun a =>
      rbind (sequence (by_key (map (fun '(k, m) => (k, first_step o false m)) kids))) (fun l =>
      Ok (FGrp (group_hints o root a) (map (fun '(k, (f, _)) => (k, f)) l),
          flat_map (fun '(k, (_, ns)) => map (cons k) ns) l)))
  end.

Fixpoint look (n : gnode) (loc : list str) : res gnode :=
  match loc, n with
  | [], _ => Ok n
  | k :: loc, GGrp _ kids => match dget k kids with Some m => look m loc | None => Err KeyError end
  | _ :: _, GSet _ _ => Err IndexError
  end.
Fixpoint alter (n : fnode) (loc : list str) (f : dset el -> res (dset el)) : res fnode :=
  match loc, n with
  | [], FSet d a => rbind (f d) (fun d => Ok (FSet d a))
  | k :: loc, FGrp a kids =>
      match dget k kids with
      | Some m => rbind (alter m loc f) (fun m => Ok (FGrp a (dput k m kids)))
      | None => Err KeyError
      end
  | _, _ => Err OtherException
  end.

(** Lines 2800-2831: every rank writes its part of the datasets, in some
    order. *)
Definition file_arg (f : fformat) : farg := match f with HDF5 => FName | _ => FZarr true end.
Definition write_one (o : wopts) (order : list nat) (a : dist el) (d : dset el) : res (dset el) :=
  if a_type a =? ty_unicode then Err TypeError
  else NioModel.to_file (w_h5mpi o) (w_format o) (file_arg (w_format o)) (w_tn o) (w_td o) a el_zero
         (a_comp a) order (Some d).
Definition second_at (o : wopts) (order : list nat) (t : gnode) (f : fnode) (loc : list str) : res fnode :=
  rbind (look t loc) (fun n =>
  match n with
  | GSet (Distr a) _ => alter f loc (write_one o order a)
  | _ => Err AttributeError
  end).
Fixpoint second_step (o : wopts) (order : list str -> list nat) (t : gnode) (names : list (list str)) (f : fnode)
  : res fnode :=
  match names with
  | [] => Ok f
  | loc :: names => rbind (second_at o (order loc) t f loc) (fun f => second_step o order t names f)
  end.
Definition distributed_group_to_file (o : wopts) (order : list str -> list nat) (t : gnode) : res fnode :=
  match w_format o with
  | OtherFormat => Err ValueError
  | _ => rbind (first_step o true t) (fun '(f, names) => second_step o order t names f)
  end.

(** Lines 672-680: [hints] is not passed on. *)
Definition to_file (o : wopts) (order : list str -> list nat) (t : gnode) : res fnode :=
  distributed_group_to_file
    {| w_format := w_format o; w_convert := w_convert o; w_convert_attrs := w_convert_attrs o;
       w_hints := true; w_h5mpi := w_h5mpi o; w_tn := w_tn o; w_td := w_td o |} order t.

(** What a rank holds after reading. *)
Inductive rdata :=
| RCommon (d : dset el)
| RDistr (gshape : list nat) (ax off : nat) (lshape : list nat) (ty : nat) (data : nd el) (comp : option nat).
Inductive rnode := RSet (d : rdata) (a : attrs) | RGrp (a : attrs) (kids : list (str * rnode)).

Record hint := { h_distributed : option bool; h_axis : option Z }.
Inductive hints := HintsFalse | HintsTrue | HintsDict (l : list (str * hint)).
Record ropts := {
  r_format : fformat; r_convert : bool; r_convert_attrs : bool; r_hints : hints;
  r_h5mpi : bool; r_tn : Z; r_td : Z; r_item : nat -> Z;
  r_selections : option (list (str * list asel)) }.

Definition truth (v : av) : bool :=
  match v with
  | ANone => false
  | ABool b => b
  | AInt z | ANpInt z => negb (z =? 0)%Z
  | AStr s | ABytes s => match s with [] => false | _ => true end
  | AList l => match l with [] => false | _ => true end
  | ADict l => match l with [] => false | _ => true end
  | _ => true
  end.
Definition as_int (v : av) : res Z :=
  match v with AInt z | ANpInt z => Ok z | ABool b => Ok (if b then 1 else 0)%Z | _ => Err TypeError end.

(** Lines 2884-2889: [selections.get(item.name, selections.get(item.name[1:]))]. *)
Definition selection_for (o : ropts) (name : str) : option (list asel) :=
  match r_selections o with
  | None => None
  | Some l => match dget name l with Some s => Some s | None => dget (tl name) l end
  end.
Definition hint_for (o : ropts) (name : str) : hint :=
  match r_hints o with
  | HintsDict l => match dget name l with Some h => h | None => {| h_distributed := None; h_axis := None |} end
  | _ => {| h_distributed := None; h_axis := None |}
  end.
(** Lines 2899-2902 and 2905-2909. *)
Definition is_distributed (o : ropts) (name : str) (a : attrs) : bool :=
  match r_hints o with HintsFalse => false | _ => true end &&
  ((match h_distributed (hint_for o name) with Some b => b | None => false end)
   || match dget dist_dset a with Some v => truth v | None => false end).
Definition axis_for (o : ropts) (name : str) (a : attrs) : res Z :=
  match h_axis (hint_for o name) with
  | Some z => Ok z
  | None => match dget dist_axis a with Some v => as_int v | None => Ok 0%Z end
  end.

(** Lines 2926-2944: [item[:]] of a dataset without axes is an error. *)
Definition read_common (o : ropts) (sel : option (list asel)) (d : dset el) : res (dset el) :=
  rbind (match sel with
         | None => match d_shape d with [] => Err ValueError | _ => Ok (mkdset (d_shape d) (d_type d) (d_data d) None) end
         | Some sel =>
             rbind (sels_positions sel (d_shape d)) (fun ps =>
             Ok (mkdset (map (@length nat) ps) (d_type d) (fun k => d_data d (index_at ps k)) None))
         end) (fun d =>
  Ok (if r_convert o then ensure_unicode d else d)).

(** Lines 2896-2947, for one dataset on one rank. *)
Definition read_set (o : ropts) (junk : nd el) (size rank : nat) (name : str) (d : dset el) (a : attrs) : res rnode :=
  let sel := selection_for o name in
  rbind (if is_distributed o name a then
           rbind (axis_for o name a) (fun axis =>
           rbind (from_file (r_h5mpi o) (r_format o) FName (r_tn o) (r_td o) (r_item o (d_type d)) d axis sel size rank junk)
             (fun '(gshape, ax, off, lshape, data) =>
              Ok (RDistr gshape ax off lshape (d_type d) data None)))
         else rbind (read_common o sel d) (fun d => Ok (RCommon d))) (fun x =>
  rbind (copyattrs a Mem (r_convert_attrs o) []) (fun a => Ok (RSet x a))).

(** Lines 2877-2947, [_copy_from_file]; [prefix] is the name of the group, [""]
    for the root. *)
Fixpoint read_node (o : ropts) (junk : nd el) (size rank : nat) (prefix : str) (n : fnode) : res rnode :=
  match n with
  | FSet d a => read_set o junk size rank prefix d a
  | FGrp a kids =>
      rbind (copyattrs a Mem (r_convert_attrs o) []) (fun a =>
      rbind (sequence (by_key (map (fun '(k, m) => (k, read_node o junk size rank (prefix ++ slash :: k) m)) kids)))
        (fun l => Ok (RGrp a l)))
  end.
Definition distributed_group_from_file (o : ropts) (junk : nd el) (size rank : nat) (f : fnode) : res rnode :=
  read_node o junk size rank [] f.
