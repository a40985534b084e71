(** Specifications for distributed groups in files (C194-C202). *)
From Coq Require Import String.
From Coq Require Import List Ascii Bool Arith ZArith Permutation.
From Verif Require Import PyBase PyStr MemModel JsonModel JsonSpec AttrSpec PartSpec SliceModel SliceSpec
  NioModel NioSpec GfModel.
Import ListNotations.
Open Scope list_scope.
Open Scope nat_scope.

(** Attributes a format can hold, and as what they come back. *)
Definition attr_ok (f : fformat) (v : av) : Prop :=
  match f with HDF5 => h5_value v | _ => jsonlike v /\ untagged v end.
Definition attr_back (f : fformat) (v : av) : av := match f with HDF5 => h5_back v | _ => v end.
Definition AttrsOk (f : fformat) (a : attrs) : Prop := forall k v, dget k a = Some v -> attr_ok f v.
(** The names used for hints. *)
Definition reserved (k : str) : Prop :=
  k = s_ "__memh5_distributed_file" \/ k = s_ "__memh5_distributed_dset" \/ k = s_ "__memh5_distributed_axis".
Definition AttrsBack (f : fformat) (orig back : attrs) : Prop :=
  forall k, ~ reserved k -> dget k back = option_map (attr_back f) (dget k orig).

(** Texts of ASCII characters only. *)
Definition ascii_only (x : el) : Prop :=
  match x with Txt s => Forall (fun c => nat_of_ascii c < 128) s | Num _ => True end.

(** A dataset that can be written: common ones need an axis, and texts must be
    converted; distributed ones hold no unicode strings, and are stored as in
    C184. *)
Definition CommonOk (convert : bool) (d : dset el) : Prop :=
  d_shape d <> []
  /\ if convert then d_type d = 0 -> forall i, inside (d_shape d) i -> ascii_only (d_data d i)
     else d_type d <> 0.
Definition DistrOk (o : wopts) (size : nat) (a : dist el) : Prop :=
  (exists ax g, a_axis a = Z.of_nat ax /\ ax < length (a_gshape a)
     /\ Distributes (a_gshape a) ax size (a_locs a) g
     /\ (w_format o = HDF5 -> w_h5mpi o = true ->
         Splittable true (w_tn o) (w_td o) (a_gshape a) ax size (a_item a)
         /\ (a_comp a = None \/ size <= nth ax (a_gshape a) 0)))
  /\ a_size a = size /\ 1 <= size /\ (0 <= a_item a)%Z /\ a_type a <> 0.

Inductive Writable (o : wopts) (size : nat) : gnode -> Prop :=
| WCommon : forall v a, AttrsOk (w_format o) (a 0) -> CommonOk (w_convert o) (v 0) ->
    Writable o size (GSet (Common v) a)
| WDistr : forall x a, AttrsOk (w_format o) (a 0) -> DistrOk o size x ->
    Writable o size (GSet (Distr x) a)
| WGrp : forall a kids, AttrsOk (w_format o) (a 0) -> NoDup (map fst kids) ->
    (forall k m, In (k, m) kids -> Writable o size m) -> Writable o size (GGrp a kids).

(** The selection of a dataset: under its full name, or without the first
    slash. *)
Definition chosen (sels : option (list (str * list asel))) (name : str) : list asel :=
  match sels with
  | None => []
  | Some l => match dget name l with
              | Some s => s
              | None => match dget (tl name) l with Some s => s | None => [] end
              end
  end.

(** A tree that can be read back by [size] ranks. *)
Definition SelectionOk (o : ropts) (sel : list asel) (shape : list nat) : Prop :=
  Readable sel shape
  /\ (r_format o = Zarr -> Forall (fun s => exists sl, s = SelSlice sl) sel).
Inductive Readback (o : ropts) (size : nat) : str -> gnode -> Prop :=
| BCommon : forall name v a, SelectionOk o (chosen (r_selections o) name) (d_shape (v 0)) ->
    Readback o size name (GSet (Common v) a)
| BDistr : forall name x a, SelectionOk o (chosen (r_selections o) name) (a_gshape x) ->
    (0 <= r_item o (a_type x))%Z ->
    (forall ax, a_axis x = Z.of_nat ax -> r_format o = HDF5 ->
     Splittable (r_h5mpi o && (0 <? a_axis x)%Z) (r_tn o) (r_td o)
       (map (@length nat) (wanted_all (chosen (r_selections o) name) (a_gshape x))) ax size (r_item o (a_type x))) ->
    Readback o size name (GSet (Distr x) a)
| BGrp : forall name a kids, (forall k m, In (k, m) kids -> Readback o size (name ++ slash :: k) m) ->
    Readback o size name (GGrp a kids).

(** Numpy type after writing and reading: with conversion byte strings and
    unicode strings both come back as unicode strings. *)
Definition type_back (wconv rconv : bool) (ty : nat) : nat :=
  let stored := if wconv && (ty =? 0) then 1 else ty in
  if rconv && (stored =? 1) then 0 else stored.

(** What rank [r] of [size] holds after reading: the tree of rank 0, its
    attributes, its common datasets, and its own part of the distributed
    ones. *)
Inductive Restored (f : fformat) (wconv rconv : bool) (sels : option (list (str * list asel))) (size r : nat)
  : str -> gnode -> rnode -> Prop :=
| RsCommon : forall name v a d b,
    AttrsBack f (a 0) b ->
    Holds d (map (@length nat) (wanted_all (chosen sels name) (d_shape (v 0))))
      (type_back wconv rconv (d_type (v 0)))
      (selected (wanted_all (chosen sels name) (d_shape (v 0))) (d_data (v 0))) ->
    Restored f wconv rconv sels size r name (GSet (Common v) a) (RSet (RCommon d) b)
| RsDistr : forall name x a ax gs data comp b,
    AttrsBack f (a 0) b ->
    a_axis x = Z.of_nat ax ->
    gs = map (@length nat) (wanted_all (chosen sels name) (a_gshape x)) ->
    (forall g, Distributes (a_gshape x) ax (a_size x) (a_locs x) g ->
     forall k, inside (part_shape gs ax size r) k ->
       data k = selected (wanted_all (chosen sels name) (a_gshape x)) g (move ax (start_of (nth ax gs 0) size r) k)) ->
    Restored f wconv rconv sels size r name (GSet (Distr x) a)
      (RSet (RDistr gs ax (start_of (nth ax gs 0) size r) (part_shape gs ax size r) (a_type x) data comp) b)
| RsGrp : forall name a kids b kids',
    AttrsBack f (a 0) b ->
    Permutation (map fst kids) (map fst kids') ->
    (forall k m m', In (k, m) kids -> In (k, m') kids' ->
      Restored f wconv rconv sels size r (name ++ slash :: k) m m') ->
    Restored f wconv rconv sels size r name (GGrp a kids) (RGrp b kids').

(** The hints in a file say which datasets are distributed, and over which
    axis. *)
Definition says_int (v : av) (z : Z) : Prop := v = AInt z \/ v = ANpInt z.
Inductive Hinted : gnode -> fnode -> Prop :=
| HtCommon : forall v a d b, dget (s_ "__memh5_distributed_dset") b = Some (ABool false) ->
    Hinted (GSet (Common v) a) (FSet d b)
| HtDistr : forall x a d b v, dget (s_ "__memh5_distributed_dset") b = Some (ABool true) ->
    dget (s_ "__memh5_distributed_axis") b = Some v -> says_int v (a_axis x) ->
    Hinted (GSet (Distr x) a) (FSet d b)
| HtGrp : forall a kids b kids', Permutation (map fst kids) (map fst kids') ->
    (forall k m m', In (k, m) kids -> In (k, m') kids' -> Hinted m m') ->
    Hinted (GGrp a kids) (FGrp b kids').

(** No attribute of the file is a hint. *)
Inductive Unhinted : fnode -> Prop :=
| UhSet : forall d b, (forall k, reserved k -> dget k b = None) -> Unhinted (FSet d b)
| UhGrp : forall b kids, (forall k, reserved k -> dget k b = None) -> (forall k m, In (k, m) kids -> Unhinted m) ->
    Unhinted (FGrp b kids).
Inductive Unreserved : gnode -> Prop :=
| UrSet : forall d a, (forall k, reserved k -> dget k (a 0) = None) -> Unreserved (GSet d a)
| UrGrp : forall a kids, (forall k, reserved k -> dget k (a 0) = None) -> (forall k m, In (k, m) kids -> Unreserved m) ->
    Unreserved (GGrp a kids).
