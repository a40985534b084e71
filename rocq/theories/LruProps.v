(** Property theorems: LRU cache (C08). *)
From Coq Require Import List Arith.
From Verif Require Import PyBase LruModel LruSpec LruProofs.
Import ListNotations.

(** The bytes held never exceed the budget and keys are unique. *)
Theorem C08_budget : forall V nbytes maxsize (h : list (op V)),
  list_sum (map (fun e => match nbytes (fst (snd e)) with Some s => s | None => 0 end)
                (items V (run V nbytes maxsize h))) <= maxsize
  /\ NoDup (map fst (items V (run V nbytes maxsize h))).
Proof. exact LruProofs.budget. Qed.
Print Assumptions C08_budget.

(** A lookup misses or returns what the history last stored. *)
Theorem C08_never_lies : forall V nbytes maxsize (h : list (op V)) k,
  match getitem V (run V nbytes maxsize h) k with
  | Ok (v, _) => stored V nbytes maxsize h k = Some v
  | Err e => e = KeyError
  end.
Proof. exact LruProofs.never_lies. Qed.
Print Assumptions C08_never_lies.

(** A store keeps every item used more recently than one it keeps. *)
Theorem C08_evicts_least_recent : forall V nbytes maxsize (h : list (op V)) k v a b,
  a <> k -> b <> k ->
  (exists e, lookup V (run V nbytes maxsize h) b = Some e) ->
  LessRecent V nbytes maxsize h a b ->
  (exists e, lookup V (run V nbytes maxsize (h ++ [Set_ k v])) a = Some e) ->
  (exists e, lookup V (run V nbytes maxsize (h ++ [Set_ k v])) b = Some e).
Proof. exact LruProofs.evicts_oldest. Qed.
Print Assumptions C08_evicts_least_recent.

Theorem C08_no_needless_eviction : forall V nbytes maxsize (h : list (op V)) k v s a,
  nbytes v = Some s ->
  list_sum (map (fun e => match nbytes (fst (snd e)) with Some s => s | None => 0 end)
                (items V (run V nbytes maxsize h))) + s <= maxsize ->
  (exists e, lookup V (run V nbytes maxsize h) a = Some e) ->
  (exists e, lookup V (run V nbytes maxsize (h ++ [Set_ k v])) a = Some e).
Proof. exact LruProofs.no_needless_eviction. Qed.
Print Assumptions C08_no_needless_eviction.

Theorem C08_store_succeeds_iff_fits : forall V nbytes maxsize (h : list (op V)) k v s,
  nbytes v = Some s ->
  (s <= maxsize -> exists c, setitem V nbytes maxsize (run V nbytes maxsize h) k v = Ok c
                             /\ lookup V c k = Some (v, s))
  /\ (maxsize < s -> setitem V nbytes maxsize (run V nbytes maxsize h) k v = Err ValueError).
Proof. exact LruProofs.store_works. Qed.
Print Assumptions C08_store_succeeds_iff_fits.

(** Budget 10, values are their own sizes: storing 5 under key 4 evicts key 2
    (key 1 was read since). *)
Definition ex_ops : list (op nat) := [Set_ 1 3; Set_ 2 4; Get 1; Set_ 3 2; Set_ 4 5].
Example C08_example :
  map (fun k => lookup nat (run nat Some 10 ex_ops) k) [1; 2; 3; 4]
  = [Some (3, 3); None; Some (2, 2); Some (5, 5)].
Proof. reflexivity. Qed.
Example C08_example_recent : LessRecent nat Some 10 (firstn 4 ex_ops) 2 1.
Proof.
  exists 2. split; [left; reflexivity|]. intros i [H|[v [H _]]];
  destruct i as [|[|[|[|i]]]]; cbn in H; try discriminate; auto.
  destruct i; discriminate. destruct i; discriminate.
Qed.
