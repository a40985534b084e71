(** Specifications for reading and writing arrays with several axes
    (C184-C192). *)
From Coq Require Import String.
From Coq Require Import List ZArith Bool Arith.
From Verif Require Import PyBase PyStr PartSpec SliceModel SliceSpec NioModel.
Import ListNotations.
Open Scope list_scope.
Open Scope nat_scope.

(** Indices of an array of a given shape. *)
Definition inside (shape i : list nat) : Prop := Forall2 lt i shape.

(** Replacing an entry of a list. *)
Fixpoint replace_at {A} (k : nat) (x : A) (l : list A) : list A :=
  match k, l with
  | _, [] => []
  | 0, _ :: t => x :: t
  | S k, y :: t => y :: replace_at k x t
  end.

(** Moving an index by [d] along an axis. *)
Definition move (ax d : nat) (k : list nat) : list nat := replace_at ax (nth ax k 0 + d) k.

(** Shape of the part of rank [r]: the even split of the axis. *)
Definition part_shape (gshape : list nat) (ax size r : nat) : list nat :=
  replace_at ax (part_of (nth ax gshape 0) size r) gshape.

(** The local arrays are the parts of the global array [g]. *)
Definition Distributes {A} (gshape : list nat) (ax size : nat) (locs : nat -> nd A) (g : nd A) : Prop :=
  forall r k, r < size -> inside (part_shape gshape ax size r) k ->
    locs r k = g (move ax (start_of (nth ax gshape 0) size r) k).

(** A selection of an array, axis by axis: the positions wanted. *)
Definition wanted (s : asel) (n : nat) : list nat :=
  match s with SelSlice s => py_positions s n | SelList idx => idx end.
Fixpoint wanted_all (sel : list asel) (shape : list nat) : list (list nat) :=
  match shape with
  | [] => []
  | n :: shape => match sel with
                  | [] => seq 0 n :: wanted_all [] shape
                  | s :: sel => wanted s n :: wanted_all sel shape
                  end
  end.
(** The selected array: element [k] is at the [k]-th positions. *)
Definition selected {A} (ws : list (list nat)) (g : nd A) : nd A :=
  fun k => g (map (fun '(w, x) => nth x w 0) (combine ws k)).

(** Selections for which reading is meant to work: slices with positive step
    which do not run backwards by a step or more, and lists of positions in
    range. *)
Definition ReadableEntry (s : asel) (n : nat) : Prop :=
  match s with
  | SelSlice s => positive_step s
      /\ (py_bound (Z.of_nat n) 0 (sl_start s) - py_bound (Z.of_nat n) (Z.of_nat n) (sl_stop s)
          < py_step (sl_step s))%Z
  | SelList idx => Forall (fun i => i < n) idx
  end.
Definition Readable (sel : list asel) (shape : list nat) : Prop :=
  length sel <= length shape
  /\ forall j s, nth_error sel j = Some s -> ReadableEntry s (nth j shape 0).

(** What a rank gets. *)
Definition ReadsPart {A} (size : nat) (result : nat -> res (list nat * nat * nat * list nat * nd A))
    (gshape : list nat) (ax : nat) (g : nd A) : Prop :=
  exists locs, Distributes gshape ax size locs g
  /\ forall r, r < size ->
       result r = Ok (gshape, ax, start_of (nth ax gshape 0) size r, part_shape gshape ax size r, locs r).

(** Bytes of a part. *)
Definition part_bytes (gshape : list nat) (ax size r : nat) (item : Z) : Z :=
  (item * prod (part_shape gshape ax size r))%Z.

(** Arrays whose transfers can be cut to at most [tn / td] bytes: without
    MPI-IO nothing is cut; with it, some rank must have data, and either every
    part is small enough or another axis is long enough to cut it. *)
Definition Splittable (mpi : bool) (tn td : Z) (gshape : list nat) (ax size : nat) (item : Z) : Prop :=
  mpi = false
  \/ ((exists r, r < size /\ (0 < part_bytes gshape ax size r item)%Z)
      /\ ((forall r, r < size -> (td * part_bytes gshape ax size r item <= tn)%Z)
          \/ exists j, j < length gshape /\ j <> ax
               /\ forall r, r < size ->
                    (td * part_bytes gshape ax size r item <= tn * Z.of_nat (nth j gshape 0%nat))%Z)).

(** The dataset in the file: absent, or of the same shape and type. *)
Definition Compatible {A} (old : option (dset A)) (shape : list nat) (ty : nat) : Prop :=
  match old with None => True | Some d => d_shape d = shape /\ d_type d = ty end.

(** The file holds the array [g]. *)
Definition Holds {A} (d : dset A) (shape : list nat) (ty : nat) (g : nd A) : Prop :=
  d_shape d = shape /\ d_type d = ty /\ forall i, inside shape i -> d_data d i = g i.

(** Whether the file is used through MPI-IO. *)
Definition mpi_file (h5mpi : bool) (f : farg) : bool :=
  match f with FName => h5mpi | FH5 b => b | _ => false end.

(** Whether reading goes through MPI-IO. *)
Definition read_mpi (h5mpi : bool) (f : farg) (axis : Z) : bool :=
  match f with FName => h5mpi && (0 <? axis)%Z | FH5 b => b | _ => false end.

(** The axis meant by a number, counted from the end if negative. *)
Definition MeansAxis (axis : Z) (ndim ax : nat) : Prop :=
  ax < ndim /\ (axis = Z.of_nat ax \/ axis = Z.of_nat ax - Z.of_nat ndim)%Z.

(** Directory part of a file name: what is before the last separator. *)
Definition in_directory (dir name : str) : Prop :=
  exists base, name = dir ++ slash :: base /\ ~ In slash base.
