(** C317, C319, C320: what is returned by [to_disk], and the errors. *)
From Coq Require Import List Bool Arith.
From Verif Require Import PyBase DskModel.
Import ListNotations.
Open Scope nat_scope.

(** C317: the root of the new file is returned; it can be written to unless it was opened for reading, as it is by default. *)
Theorem C317_returned : forall T empty with_class (fs : files T) s n f mode fs' s',
  to_disk T empty with_class fs s n f mode = Ok (fs', s') ->
  exists w, s' = OnDisk n f false w /\ (w = false <-> mode = None \/ mode = Some R).
Proof.
  intros T empty wc fs s n f mode fs' s' H. unfold to_disk in H.
  assert (G : rbind (save T empty wc fs s n f) (fun '(fs, _) =>
      rbind (open_ T empty fs n f (match mode with Some m => m | None => R end)) (fun fs =>
      Ok (fs, OnDisk n f false (match (match mode with Some m => m | None => R end) with R => false | _ => true end)))) = Ok (fs', s')).
  { destruct s as [[] t|]; [discriminate H|exact H|exact H]. }
  clear H. destruct (save T empty wc fs s n f) as [[fs1 s1]|e]; cbn [rbind] in G; [|discriminate G].
  destruct (open_ _ _ _ _ _ _) as [fs2|e] in G; cbn [rbind] in G; [|discriminate G]. injection G as _ <-.
  eexists. split; [reflexivity|]. destruct mode as [[]|]; split; intro K; auto; try discriminate K; destruct K as [K|K]; discriminate K.
Qed.
Print Assumptions C317_returned.

(** C319: a group inside a file has no file name. *)
Theorem C319_inside : forall T empty with_class (fs : files T) m g t h n f mode, fs m = Some (h, t) ->
  to_disk T empty with_class fs (OnDisk m g true true) n f mode = Err AttributeError.
Proof. intros T empty wc fs m g t h n f mode H. unfold to_disk, save. cbn [negb]. now rewrite H. Qed.
Print Assumptions C319_inside.

(** C320 *)
Theorem C320_attribute : forall T (fs : files T) n f sub w, sub = true \/ f = Zarr -> to_memory T fs (OnDisk n f sub w) = Err AttributeError.
Proof. intros T fs n f sub w [-> | ->]; cbn; [reflexivity|]. now destruct sub. Qed.
Print Assumptions C320_attribute.

Example C317_returned_example : let fs : files nat := fun k => if k =? 1 then Some (H5, 41) else None in
  (exists fs', to_disk nat 0 S fs (InMemory false 7) 2 H5 None = Ok (fs', OnDisk 2 H5 false false))
  /\ (exists fs', to_disk nat 0 S fs (InMemory false 7) 2 H5 (Some A) = Ok (fs', OnDisk 2 H5 false true))
  /\ to_disk nat 0 S fs (OnDisk 1 H5 true true) 2 Zarr None = Err AttributeError
  /\ to_memory nat fs (OnDisk 1 H5 true true) = Err AttributeError.
Proof. split; [eexists; reflexivity|]. split; [eexists; reflexivity|]. split; reflexivity. Qed.
