(** Model of [TOData.time], /repo/caput/containers/tod.py lines 47-72.
    Simplified: rational numbers instead of floating point; the index map is
    the list of times ("ctime" or the index map itself). *)
From Coq Require Import List QArith Qabs Arith.
From Verif Require Import PyBase.
Import ListNotations.
Open Scope Q_scope.

(** np.diff *)
Fixpoint diff (l : list Q) : list Q :=
  match l with
  | a :: (b :: _) as r => (b - a) :: diff r
  | _ => []
  end.
(** np.median; of nothing it is not a number. *)
Definition median (l : list Q) : option Q :=
  let s := py_sorted Qle_bool l in
  let n := length s in
  match n with
  | O => None
  | _ => if Nat.even n then Some ((nth (n / 2 - 1) s 0 + nth (n / 2) s 0) / 2) else Some (nth (n / 2) s 0)
  end.
(** Lines 64-72.  None is not a number. *)
Definition tod_time (alignment : Q) (time : list Q) : list (option Q) :=
  if Qeq_bool alignment 0 then map Some time
  else match median (diff time) with
       | Some m => map (fun t => Some (t + alignment * (Qabs m / 2))) time
       | None => map (fun _ => None) time
       end.
