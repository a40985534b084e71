(** What a [MemDiskGroup] should show and protect. *)
From Coq Require Import List Ascii Bool Arith.
From Verif Require Import PyBase PyStr MemModel MemSpec MdgModel.
Import ListNotations.

(** A name in a group. *)
Definition Name (w : str) : Prop := w <> [] /\ ~ In slash w.
(** The rules of the class let an entry of a path be seen. *)
Definition Visible {D V} (r : rules) (p : list str) (n : node D V) : Prop :=
  match n with
  | Grp _ _ => group_allowed r (canonical p) = true
  | Dset _ => dataset_allowed r (canonical p) = true
  end.
(** The names a Container accepts for datasets: one name, with or without a
    slash before it. *)
Definition Toplevel (name k : str) : Prop := ~ In slash k /\ (name = k \/ name = slash :: k).
(** A call does not create a dataset of that name. *)
Definition Spares {D} (k : str) (c : call D) : Prop :=
  match c with
  | CreateDataset _ n _ | RequireDataset _ n _ => ~ Toplevel n k
  | _ => True
  end.
Definition on_root {D} (c : call D) : Prop :=
  match c with
  | CreateGroup g _ | RequireGroup g _ | CreateDataset g _ _ | RequireDataset g _ _ | Delete g _ => g = [slash]
  end.
