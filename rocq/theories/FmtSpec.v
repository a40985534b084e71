(** What file format arguments mean. *)
From Coq Require Import String.
From Coq Require Import List Ascii Bool Arith ZArith.
From Verif Require Import PyStr FmtModel.
Import ListNotations.
Open Scope list_scope.

(** A name ends with a suffix. *)
Definition Ends (suffix : string) (name : str) : Prop := exists t, name = t ++ s_ suffix.
(** The format a name stands for. *)
Inductive NameOf (is_dir : str -> bool) (name : str) : option format -> Prop :=
| Name_zarr : Ends ".zarr" name \/ Ends ".zarr.zip" name \/ is_dir name = true -> NameOf is_dir name (Some Zarr)
| Name_hdf5 : is_dir name = false -> Ends ".h5" name \/ Ends ".hdf5" name -> NameOf is_dir name (Some HDF5)
| Name_none : is_dir name = false -> (forall e, In e [".zarr"; ".zarr.zip"; ".h5"; ".hdf5"]%string -> ~ Ends e name) -> NameOf is_dir name None.
(** Known values agree. *)
Definition Agree (a b : option format) : Prop := forall x y, a = Some x -> b = Some y -> x = y.
(** Spellings of the bitshuffle filter with LZ4. *)
Inductive Bitshuffle : carg -> Prop :=
| Bs_name : Bitshuffle (AStr (s_ "bitshuffle")) | Bs_number : Bitshuffle (AInt 32008) | Bs_text : Bitshuffle (AStr (s_ "32008")).
Inductive Lz4 : carg -> Prop := Lz4_name : Lz4 (AStr (s_ "lz4")) | Lz4_number : Lz4 (AInt 2) | Lz4_text : Lz4 (AStr (s_ "2")).
Inductive Block : carg -> Z -> Prop := Block_none : Block ANone 0 | Block_int : forall b, Block (AInt b) b.
