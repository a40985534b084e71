(** C58: distributed datasets are not copied into common ones. *)
From Coq Require Import String.
From Coq Require Import List Ascii Bool Arith ZArith Lia.
From Verif Require Import PyBase PyStr MemModel MemProofs2 AttrModel ContModel PartModel SliceModel RedModel DistModel FiltModel FiltSpec FiltProofs FiltProofs2 FiltProps.
Import ListNotations.
Open Scope list_scope.
Open Scope nat_scope.

Theorem C58_distributed : forall (A : Type) size (items : list (@dset A)) dest make axis sel exclude all r,
  NoDup (map (@d_name A) items) ->
  copy_filter size items dest make axis (SDict sel) exclude all = Ok r ->
  forall item d, In item items -> to_copy (ax_of axis sel) exclude all item ->
    (dget (d_name item) dest = Some d \/ (dget (d_name item) dest = None /\ make (d_name item) = Ok d)) ->
    d_dist item <> None -> d_dist d <> None.
Proof.
  intros A size items dest make axis sel exclude all r N H item d I T P D. apply to_copy_iff in T. unfold copy_filter in H.
  assert (Ax: forall X : list str -> res (list (str * @dset A) * list (str * fsel)),
    rbind (match axis with [] => Ok (map fst sel) | _ :: _ => if forallb (fun a => mem_name a (map fst sel)) axis then Ok axis else Err ValueError end) X = Ok r ->
    X (ax_of axis sel) = Ok r).
  { intros X. unfold ax_of. destruct axis; [auto|]. destruct (forallb _ _); [auto|discriminate]. }
  apply Ax in H. clear Ax. destruct (clean sel) as [sel'|]; [|discriminate]. cbn [rbind] in H.
  destruct (copy_items _ _ _ _ _ _ _ items dest) as [dest'|] eqn:E; [|discriminate]. clear H r.
  assert (Q: exists orig, copy_items size (ax_of axis sel) exclude all make sel' orig items dest = Ok dest') by eauto. destruct Q as [orig Q]. clear E. revert orig Q P. revert dest N I. induction items as [|x items IH]; intros dest N I orig E P; [destruct I|].
  cbn [copy_items] in E. cbn [map] in N. inversion N as [|? ? Nx Nr]; subst. destruct I as [X|I].
  - subst x. rewrite T in E.
    assert (G: match dget (d_name item) dest with Some d => Ok d | None => make (d_name item) end = Ok d).
    { destruct P as [->|[-> P]]; auto. }
    rewrite G in E. cbn [rbind] in E. unfold copy_item in E. destruct (d_dist item); [|contradiction]. destruct (d_dist d); [congruence|discriminate E].
  - destruct (skipped (ax_of axis sel) exclude all x); [eapply IH; eauto|].
    destruct (match dget (d_name x) dest with Some d => Ok d | None => make (d_name x) end) as [d1|]; [|discriminate]. cbn [rbind] in E.
    destruct (copy_item _ _ _ _ x d1) as [[d2 o2]|]; [|discriminate]. cbn [rbind] in E.
    eapply IH; [assumption|assumption|exact E|]. rewrite dget_dput_other; auto.
    intros K. apply Nx. rewrite <- K. now apply in_map.
Qed.
Print Assumptions C58_distributed.
Example C58_distributed_example :
  copy_filter 2 [mkdset (s_ "x") [s_ "t"] (Some 0) (mknd [4] (fun _ => 1))] [(s_ "x", mkdset (s_ "x") [s_ "t"] None (mknd [4] (fun _ => 0)))]
    (fun _ => Err KeyError) [] (SDict []) [] true = Err ValueError.
Proof. reflexivity. Qed.
