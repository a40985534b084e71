(** Theorems about the symmetries of moving weighted medians. *)
From Coq Require Import List ZArith Bool Arith Permutation Lia.
From Verif Require Import PyBase MedModel MedSpec MedProofs MedProofs2 MedProofs3 MedProofs4 MsySpec MsyProofs.
Import ListNotations.
Open Scope Z_scope.

(** ** C385 *)
(** Other units for the values, a change of their sign and other units for the weights. *)
Theorem C385_units : forall data size c d k, data <> [] -> nonneg data -> Nat.odd size = true -> c <> 0 -> 0 < k ->
  exists vs vs', moving_1d data size MSplit = Ok vs /\ moving_1d (map (affine c d k) data) size MSplit = Ok vs' /\ length vs' = length vs /\
    forall i v v', nth_error vs i = Some v -> nth_error vs' i = Some v' -> weighty (window1 data (size / 2) i) <> [] -> Related c d v v'.
Proof. exact moving_affine. Qed.
Print Assumptions C385_units.
Example C385_example : moving_1d [(3, 1); (5, 2); (1, 1)] 3 MSplit = Ok [Some (5, 1); Some (8, 2); Some (5, 1)] /\
  moving_1d (map (affine (-2) 1 3) [(3, 1); (5, 2); (1, 1)]) 3 MSplit = Ok [Some (-9, 1); Some (-14, 2); Some (-9, 1)].
Proof. vm_compute. auto. Qed.

(** ** C386 *)
(** The other direction, and rows for columns. *)
Theorem C386_reverse : forall data size, data <> [] -> nonneg data -> Nat.odd size = true ->
  exists vs vs', moving_1d data size MSplit = Ok vs /\ moving_1d (rev data) size MSplit = Ok vs' /\ length vs' = length vs /\
    forall i v v', nth_error vs i = Some v -> nth_error (rev vs') i = Some v' -> weighty (window1 data (size / 2) i) <> [] -> Related 1 0 v v'.
Proof. exact moving_reverse. Qed.
Print Assumptions C386_reverse.
Theorem C386_transpose : forall data len_x sy sx, data <> [] -> (0 < len_x)%nat -> rect data len_x -> Forall nonneg data ->
  Nat.odd sy = true -> Nat.odd sx = true ->
  exists rows cols, moving_2d data len_x sy sx MSplit = Ok rows /\
    moving_2d (transpose (0, 0) len_x data) (length data) sx sy MSplit = Ok cols /\
    forall y x row col v v', nth_error rows y = Some row -> nth_error row x = Some v -> nth_error cols x = Some col -> nth_error col y = Some v' ->
      weighty (window2 data (sy / 2) (sx / 2) y x) <> [] -> Related 1 0 v v'.
Proof. exact moving_transpose. Qed.
Print Assumptions C386_transpose.
Example C386_example : moving_1d [(3, 1); (5, 4); (1, 2); (2, 1)] 3 MSplit = Ok [Some (5, 1); Some (5, 1); Some (5, 1); Some (1, 1)] /\
  moving_1d (rev [(3, 1); (5, 4); (1, 2); (2, 1)]) 3 MSplit = Ok [Some (1, 1); Some (5, 1); Some (5, 1); Some (5, 1)] /\
  moving_2d [[(3, 1); (5, 4); (1, 2)]; [(2, 1); (7, 1); (9, 3)]] 3 1 3 MSplit
  = Ok [[Some (5, 1); Some (5, 1); Some (5, 1)]; [Some (9, 2); Some (9, 1); Some (9, 1)]] /\
  moving_2d [[(3, 1); (2, 1)]; [(5, 4); (7, 1)]; [(1, 2); (9, 3)]] 2 3 1 MSplit
  = Ok [[Some (5, 1); Some (9, 2)]; [Some (5, 1); Some (9, 1)]; [Some (5, 1); Some (9, 1)]].
Proof. vm_compute. auto. Qed.

(** ** C387 *)
(** The two directions differ at the ends if the windows there have no weight. *)
Theorem C387_refuted : exists data size vs vs', nonneg data /\ moving_1d data size MSplit = Ok vs /\
  moving_1d (rev data) size MSplit = Ok vs' /\ nth_error vs 0 = Some (Some (0, 1)) /\ nth_error (rev vs') 0 = Some None.
Proof.
  exists [(1, 0); (1, 0); (2, 1)], 3%nat. eexists _, _. split; [repeat constructor; cbn; lia|].
  split; [vm_compute; reflexivity|]. split; [vm_compute; reflexivity|]. split; vm_compute; reflexivity.
Qed.
Print Assumptions C387_refuted.
