(** Reading a file, and what holds in all states of a job. *)
From Coq Require Import List.
From Verif Require Import PyBase ColModel ColSpec CioModel.
Import ListNotations.

(** One process reads the whole file, in the order of the items. *)
Fixpoint in_memory (t : ftree) : res mtree :=
  match t with
  | FGrp attrs items =>
      rbind ((fix all (items : list (nat * ftree)) : res (list (nat * mtree)) :=
                match items with
                | [] => Ok []
                | (key, t) :: rest => rbind (in_memory t) (fun m => rbind (all rest) (fun ms => Ok ((key, m) :: ms)))
                end) items) (fun ms => Ok (MGrp attrs ms))
  | FCommon attrs data => rbind data (fun d => Ok (MCommon attrs d))
  | FDist attrs number => Ok (MDist attrs number)
  end.
(** At all times, whatever happens when. *)
Definition throughout {S V R} (s : state S V R) (Q : S -> Prop) : Prop := forall t, reach s t -> Q (fst t).
