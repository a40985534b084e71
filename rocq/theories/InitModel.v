(** [ContainerPrototype.__init__], /repo/caput/containers/_core.py lines
    351-465, and [add_dataset], lines 467-543.

    [axes] and [spec] are the resolved axes and dataset specification
    ([ContModel.axes], [ContModel.dataset_spec]).  An axis definition is a value
    of type [M] with a length; [arange n] is [np.arange(n)].  Data sets are
    whole arrays: source and destination are distributed alike.  Not modelled:
    [data_group], attributes, types and compression. *)
From Coq Require Import String.
From Coq Require Import List Ascii Bool Arith.
From Verif Require Import PyBase PyStr MemModel ContModel PartModel SliceModel RedModel DistModel.
Import ListNotations.
Open Scope list_scope.
Open Scope nat_scope.

Section Init.
Context {M A : Type}.
Variable mlen : M -> nat.
Variable arange : nat -> M.
Variable zero : A.

(** The value of an axis argument. *)
Inductive kwarg := KNone | KInt (n : nat) | KMap (m : M).
Record ispec := mkispec { i_axes : list axis; i_dist : option axis; i_init : bool; i_distributed : bool; i_chunks : option (list nat) }.
(** A dataset: its axes (the attribute), the array, the distributed axis and the chunks. *)
Record idset := mkid { b_axes : list axis; b_val : nd A; b_dist : option nat; b_chunks : option (list nat) }.
Record cont := mkcont { k_index : list (str * M); k_dsets : list (str * idset) }.

(** Lines 388-414 *)
Definition axis_map (kwargs : list (str * kwarg)) (axes_from : option cont) (a : str) : option M :=
  match dget a kwargs with
  | Some KNone => None
  | Some (KInt n) => Some (arange n)
  | Some (KMap m) => Some m
  | None => match axes_from with Some c => dget a (k_index c) | None => None end
  end.
Fixpoint make_axes (kwargs : list (str * kwarg)) (axes_from : option cont) (axes : list str) : res (list (str * M)) :=
  match axes with
  | [] => Ok []
  | a :: axes => match axis_map kwargs axes_from a with
                 | None => Err RuntimeError
                 | Some m => rbind (make_axes kwargs axes_from axes) (fun l => Ok ((a, m) :: l))
                 end
  end.

(** Lines 504-514 *)
Fixpoint make_shape (index : list (str * M)) (axs : list axis) : res (list nat) :=
  match axs with
  | [] => Ok []
  | AName a :: axs => match dget a index with
                      | None => Err RuntimeError
                      | Some m => rbind (make_shape index axs) (fun l => Ok (mlen m :: l))
                      end
  | ALen n :: axs => rbind (make_shape index axs) (fun l => Ok (n :: l))
  end.
Definition axis_eqb (a b : axis) : bool :=
  match a, b with AName s, AName t => seqb s t | ALen m, ALen n => m =? n | _, _ => false end.
Fixpoint axis_index (a : axis) (l : list axis) : option nat :=
  match l with
  | [] => None
  | x :: r => if axis_eqb a x then Some 0 else option_map Datatypes.S (axis_index a r)
  end.
(** Lines 522-527 *)
Fixpoint fit_chunks (chunks shape : list nat) : res (list nat) :=
  match shape, chunks with
  | [], _ => Ok []
  | l :: shape, c :: chunks => rbind (fit_chunks chunks shape) (fun r => Ok (Nat.min c l :: r))
  | _ :: _, [] => Err IndexError
  end.
(** [add_dataset]; [distributed] and [allow_chunked] are those of the container. *)
Definition new_dataset (distributed allow_chunked : bool) (index : list (str * M)) (d : ispec) : res idset :=
  rbind (make_shape index (i_axes d)) (fun shape =>
  rbind (match i_dist d with
         | Some a => Ok a
         | None => match i_axes d with a :: _ => Ok a | [] => Err IndexError end
         end) (fun a =>
  match axis_index a (i_axes d) with
  | None => Err ValueError
  | Some k =>
      rbind (match (if allow_chunked then i_chunks d else None) with
             | None => Ok None
             | Some c => rbind (fit_chunks c shape) (fun c => Ok (Some c))
             end) (fun chunks =>
      Ok (mkid (i_axes d) (mknd shape (fun _ => zero)) (if distributed && i_distributed d then Some k else None) chunks))
  end)).
Definition add_dataset (distributed allow_chunked : bool) (index : list (str * M)) (spec : list (str * ispec)) (name : str)
    (dsets : list (str * idset)) : res (list (str * idset)) :=
  match dget name spec with
  | None => Err RuntimeError
  | Some d => rbind (new_dataset distributed allow_chunked index d) (fun x => Ok (dput name x dsets))
  end.

(** Lines 416-420 *)
Fixpoint initialise (distributed allow_chunked : bool) (index : list (str * M)) (spec todo : list (str * ispec)) (dsets : list (str * idset))
  : res (list (str * idset)) :=
  match todo with
  | [] => Ok dsets
  | (name, d) :: todo =>
      rbind (if i_init d then add_dataset distributed allow_chunked index spec name dsets else Ok dsets)
            (initialise distributed allow_chunked index spec todo)
  end.
(** Lines 422-444 *)
Definition axis_changed (changed : list str) (a : axis) : bool := match a with AName s => mem_name s changed | ALen _ => false end.
Fixpoint copy_dsets (distributed allow_chunked : bool) (index : list (str * M)) (spec todo : list (str * ispec)) (changed : list str) (src : list (str * idset))
    (dsets : list (str * idset)) : res (list (str * idset)) :=
  match todo with
  | [] => Ok dsets
  | (name, _) :: todo =>
      match dget name src with
      | None => copy_dsets distributed allow_chunked index spec todo changed src dsets
      | Some s =>
          if existsb (axis_changed changed) (b_axes s) then copy_dsets distributed allow_chunked index spec todo changed src dsets
          else
            rbind (match dget name dsets with Some _ => Ok dsets | None => add_dataset distributed allow_chunked index spec name dsets end) (fun dsets =>
            match dget name dsets with
            | None => Err KeyError
            | Some d => rbind (assign_all (b_val d) (b_val s)) (fun v =>
                copy_dsets distributed allow_chunked index spec todo changed src (dput name (mkid (b_axes d) v (b_dist d) (b_chunks d)) dsets))
            end)
      end
  end.
(** [__init__] without [data_group]. *)
Definition new_container (axes : list str) (spec : list (str * ispec)) (kwargs : list (str * kwarg))
    (axes_from dsets_from : option cont) (distributed allow_chunked skip_datasets : bool) : res cont :=
  rbind (make_axes kwargs axes_from axes) (fun index =>
  rbind (if skip_datasets then Ok [] else initialise distributed allow_chunked index spec spec []) (fun dsets =>
  rbind (match dsets_from with
         | None => Ok dsets
         | Some c => copy_dsets distributed allow_chunked index spec spec (filter (fun a => mem_name a (map fst kwargs)) axes) (k_dsets c) dsets
         end) (fun dsets =>
  Ok (mkcont index dsets)))).
End Init.
