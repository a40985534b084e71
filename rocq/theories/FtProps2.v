(** Theorems about the moving weighted median of two-dimensional arrays with doubles. *)
From Coq Require Import List ZArith Reals Bool Arith Lia Lra.
From Flocq Require Import Core.Core.
From Verif Require Import PyBase MedModel MedSpec MedProofs MedProofs2 MedProofs3 MedProofs4 TruncModel TruncSpec BtModel BtSpec InvModel InvProps TfModel TfProofs GqModel GqSpec GqProofs GqProofs2 GqProofs3 FtModel FtSpec FtProofs FtProofs2 FtProofs3 FtProofs4 FtProofs5 FtProps.
Import ListNotations.
Open Scope Z_scope.

(** ** C380 *)
(** Any finite data and weights in two dimensions: every cell averages values of its window that have
    weight, or is 0 without them; or else a null pointer is followed. *)
Theorem C380_any_finite_2d : forall fdata data len_x sy sx m, Forall2 (Row Units) fdata data -> data <> [] -> (0 < len_x)%nat ->
  rect data len_x -> Nat.odd sy = true -> Nat.odd sx = true ->
  match fmoving_2d fdata len_x sy sx m with
  | Ok rows => length rows = length data /\ forall y row, nth_error rows y = Some row -> length row = len_x /\
      forall x v, nth_error row x = Some v -> shape_cell false m (window2 data (sy / 2) (sx / 2) y x) v
  | Err e => e = OtherException
  end.
Proof. exact moving_2d_shape. Qed.
Print Assumptions C380_any_finite_2d.
Example C380_example : fmoving_2d [[(of_int 1, tenths 7); (of_int 2, tenths 1); (of_int 5, tenths 3)];
    [(of_int 4, 0); (of_int 3, tenths 2); (of_int 6, 0)]] 3 1 3 MSplit
  = Ok [[Some [of_int 1]; Some [of_int 1]; Some [of_int 5]]; [Some [of_int 3]; Some [of_int 3]; Some [of_int 3]]].
Proof. vm_compute. reflexivity. Qed.
