(** C376: the byte orders that are replaced. *)
From Coq Require Import List Bool Arith.
From Verif Require Import PyBase PyStr OrdModel.

(** [check_byteorder] asks for the explicit byte order of the machine: not for "=", not for that of other machines and not for "|". *)
Theorem C376_check : forall sys o, check_byteorder sys o = true <-> (o = Less /\ sys = LittleArch) \/ (o = Greater /\ sys = BigArch).
Proof.
  intros sys o. split.
  - destruct o, sys; intro H; try discriminate H; [left|right]; split; reflexivity.
  - intros [(-> & ->)|(-> & ->)]; reflexivity.
Qed.
Print Assumptions C376_check.

Example C376_check_example : map (check_byteorder LittleArch) (Equal :: Less :: Greater :: Bar :: nil) = (false :: true :: false :: false :: nil).
Proof. reflexivity. Qed.
