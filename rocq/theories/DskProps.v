(** To disk and back; removing: theorems.  Model: DskModel.v. *)
From Coq Require Import List Bool Arith Lia.
From Verif Require Import PyBase DskModel DskProofs.
Import ListNotations.
Open Scope list_scope.
Open Scope nat_scope.

(** C317: [to_disk] of data in memory makes the file with the data (and the name of the class), whatever was there,
    and no other; the object returned shows them. *)
Theorem C317_to_disk : forall T empty with_class (fs : files T) t n f mode, mode <> Some W -> mode <> Some X ->
  exists fs' s, to_disk T empty with_class fs (InMemory false t) n f mode = Ok (fs', s) /\
    fs' n = Some (f, with_class t) /\ (forall m, m <> n -> fs' m = fs m) /\
    content T fs' s = Some (with_class t).
Proof.
  intros T empty wc fs t n f mode NW NX. unfold to_disk, save, open_. cbn [rbind].
  set (fs1 := put T (put T fs n (Some (f, empty))) n (Some (f, wc t))).
  assert (E1 : fs1 n = Some (f, wc t)) by (unfold fs1, put; rewrite Nat.eqb_refl; reflexivity).
  assert (O1 : forall m, m <> n -> fs1 m = fs m).
  { intros m M. unfold fs1, put. destruct (Nat.eqb_spec m n); [contradiction|reflexivity]. }
  assert (SF : same_fmt f f = true) by (destruct f; reflexivity).
  destruct mode as [[]|]; try congruence; rewrite E1, SF; cbn [rbind]; do 2 eexists; (split; [reflexivity|]);
    simpl; rewrite E1; auto.
Qed.
Print Assumptions C317_to_disk.
(** and back: from an HDF5 file [to_memory] gives them again, at any later time unless the file was changed; *)
Theorem C317_back : forall T empty with_class (fs : files T) t n mode fs' s fs2,
  to_disk T empty with_class fs (InMemory false t) n H5 mode = Ok (fs', s) -> fs2 n = fs' n -> mode <> Some W ->
  to_memory T fs2 s = Ok (InMemory false (with_class t)).
Proof.
  intros T empty wc fs t n mode fs' s fs2 H E NW.
  destruct (option_map (fun m => match m with X => true | _ => false end) mode) as [[|]|] eqn:M.
  - destruct mode as [[]|]; try discriminate M. unfold to_disk, save, open_ in H. cbn [rbind] in H. unfold put in H.
    rewrite Nat.eqb_refl in H. discriminate H.
  - destruct (C317_to_disk T empty wc fs t n H5 mode) as [fs1 [s1 [H1 [E1 _]]]]; [exact NW|destruct mode as [[]|]; discriminate|].
    rewrite H in H1. inversion H1; subst. unfold to_disk in H.
    destruct mode as [[]|]; try discriminate M; try congruence; cbn [save open_ rbind] in H; unfold put in H; rewrite ?Nat.eqb_refl in H; cbn [same_fmt rbind] in H;
      inversion H; subst; simpl; rewrite E; simpl; rewrite ?Nat.eqb_refl; reflexivity.
  - destruct mode; [discriminate M|].
    cbn [to_disk save open_ rbind] in H. unfold put in H. rewrite ?Nat.eqb_refl in H. cbn [same_fmt rbind] in H.
    inversion H; subst. simpl. rewrite E. simpl. rewrite ?Nat.eqb_refl. reflexivity.
Qed.
Print Assumptions C317_back.
(** data in memory stay as they are, and distributed data are refused. *)
Theorem C317_stay : forall T empty with_class (fs : files T) d t n f mode,
  to_memory T fs (InMemory d t) = Ok (InMemory d t) /\
  exists e, to_disk T empty with_class fs (InMemory true t) n f mode = Err e.
Proof. intros. split; [reflexivity|eexists; reflexivity]. Qed.
Print Assumptions C317_stay.
Definition ex_fs : files nat := fun n => if n =? 5 then Some (Zarr, 77) else None.
Example C317_ex : exists fs s, to_disk nat 0 S ex_fs (InMemory false 41) 3 H5 (Some RPlus) = Ok (fs, s) /\
  fs 3 = Some (H5, 42) /\ fs 5 = Some (Zarr, 77) /\ to_memory nat fs s = Ok (InMemory false 42).
Proof. do 2 eexists. split; [reflexivity|]. repeat split. Qed.

(** C318: "keyword arguments are passed through to the file creation, e.g. [mode]": they are used to open the file
    again, which empties it or fails. *)
Theorem C318_mode_refuted : exists (fs : files nat) t n, forall with_class, with_class t <> 0 ->
  (exists fs' s, to_disk nat 0 with_class fs (InMemory false t) n H5 (Some W) = Ok (fs', s) /\ content nat fs' s = Some 0) /\
  (exists e, to_disk nat 0 with_class fs (InMemory false t) n H5 (Some X) = Err e).
Proof.
  exists (fun _ => None), 41, 3. intros wc _. split.
  - do 2 eexists. split; [reflexivity|reflexivity].
  - eexists. reflexivity.
Qed.
Print Assumptions C318_mode_refuted.

(** C319: "data that live on disk already are copied to a new file": to an HDF5 file they never are, as it is opened for reading; *)
Theorem C319_copy_refuted : exists (fs : files nat) m n f, fs m = Some (f, 41) /\ fs n = None /\
  exists e, to_disk nat 0 S fs (OnDisk m f false true) n H5 None = Err e.
Proof. exists (fun k => if k =? 1 then Some (H5, 41) else None), 1, 2, H5. repeat split. eexists. reflexivity. Qed.
Print Assumptions C319_copy_refuted.
Theorem C319_never : forall T empty with_class (fs : files T) m f sub w n mode fs' s,
  to_disk T empty with_class fs (OnDisk m f sub w) n H5 mode <> Ok (fs', s).
Proof.
  intros T empty wc fs m f sub w n mode fs' s H. unfold to_disk, save in H.
  destruct w; [|discriminate H]. cbn [negb] in H. destruct (fs m) as [[g t]|]; [|discriminate H].
  destruct sub; [discriminate H|].
  destruct (open_ T empty (put T fs m (Some (g, wc t))) n H5 R) as [fs1|e]; cbn in H; discriminate H.

Qed.
Print Assumptions C319_never.
(** to a zarr store they are, if the old file can be written to. *)
Theorem C319_zarr : forall T empty with_class (fs : files T) m f t n, fs m = Some (f, t) -> fs n = None ->
  exists fs' s, to_disk T empty with_class fs (OnDisk m f false true) n Zarr None = Ok (fs', s) /\
    content T fs' s = Some (with_class t).
Proof.
  intros T empty wc fs m f t n M N. assert (NE : n <> m) by (intros ->; congruence). unfold to_disk, save. simpl. rewrite M.
  assert (E : put T fs m (Some (f, wc t)) n = None) by (unfold put; destruct (Nat.eqb_spec n m); [contradiction|exact N]).
  rewrite E. cbn [rbind].
  set (fs1 := put T (put T (put T fs m (Some (f, wc t))) n (Some (Zarr, empty))) n (Some (Zarr, wc t))).
  assert (E1 : fs1 n = Some (Zarr, wc t)) by (unfold fs1, put; rewrite Nat.eqb_refl; reflexivity).
  rewrite E1. cbn [same_fmt rbind]. do 2 eexists. split; [reflexivity|]. simpl. rewrite E1. reflexivity.
Qed.
Print Assumptions C319_zarr.

(** C320: "[to_memory] returns a version of the data in memory": of zarr stores, and of groups inside files, it raises. *)
Theorem C320_to_memory_refuted : exists (fs : files nat) n, content nat fs (OnDisk n Zarr false true) = Some 41 /\
  (exists e, to_memory nat fs (OnDisk n Zarr false true) = Err e) /\
  exists m, content nat fs (OnDisk m H5 true true) = Some 40 /\ exists e, to_memory nat fs (OnDisk m H5 true true) = Err e.
Proof.
  exists (fun k => if k =? 1 then Some (Zarr, 41) else if k =? 2 then Some (H5, 40) else None), 1.
  split; [reflexivity|]. split; [eexists; reflexivity|]. exists 2. split; [reflexivity|]. eexists. reflexivity.
Qed.
Print Assumptions C320_to_memory_refuted.
Theorem C320_h5 : forall T (fs : files T) n w t, fs n = Some (H5, t) -> to_memory T fs (OnDisk n H5 false w) = Ok (InMemory false t).
Proof. intros T fs n w t H. simpl. rewrite H. reflexivity. Qed.
Print Assumptions C320_h5.

(** C321: any number of processes remove the same file or directory at the same time, in any order of their steps:
    in the end it is gone and none of them has raised; *)
Definition entry_ok (e : entry) : Prop := match e with Dir l => NoDup l | _ => True end.
Theorem C321_gone : forall e n k e' ps', entry_ok e -> n > 0 ->
  rm_steps k (e, repeat Start n) (e', ps') -> (forall p, In p ps' -> p = Ended \/ p = Failed) ->
  e' = Missing /\ forall p, In p ps' -> p = Ended.
Proof.
  intros e n k e' ps' E N H F.
  assert (L : exists p, In p ps').
  { assert (L : length ps' = n).
    { assert (G : forall k s s', rm_steps k s s' -> length (snd s') = length (snd s)).
      { clear. intros k s s' H. induction H as [s|k e ps i p e' p' s _ _ _ _ _ IH]; [reflexivity|].
        rewrite IH. simpl. apply length_set_nth. }
      apply G in H. simpl in H. rewrite repeat_length in H. exact H. }
    destruct ps' as [|p ps']; [simpl in L; lia|]. exists p. left. reflexivity. }
  assert (I : inv (e', ps')).
  { apply (inv_steps _ _ _ H). simpl. destruct e as [| |l].
    - intros p P. apply repeat_spec in P. subst. discriminate.
    - intros p P. apply repeat_spec in P. left. exact P.
    - split; [exact E|]. split; [intros p P; apply repeat_spec in P; left; exact P|].
      exists Start. split; [destruct n; [lia|left; reflexivity]|left; reflexivity]. }
  destruct e' as [| |l]; simpl in I.
  - split; [reflexivity|]. intros p P. destruct (F p P) as [->| ->]; [reflexivity|]. exfalso. apply (I Failed P). reflexivity.
  - exfalso. destruct L as [p P]. destruct (F p P) as [->| ->]; destruct (I _ P); discriminate.
  - exfalso. destruct I as [_ [_ [p [P Q]]]]. destruct (F p P) as [->| ->]; destruct Q as [Q|[Q|Q]]; discriminate.
Qed.
Print Assumptions C321_gone.
(** and they all come to an end: they make at most so many steps, and one that has not ended can make another. *)
Theorem C321_ends : forall e n k s, rm_steps k (e, repeat Start n) s ->
  k <= n * (match e with Dir l => length l | _ => 0 end + 4).
Proof.
  intros e n k s H. set (m := match e with Dir l => length l | _ => 0 end).
  assert (B : k <= todos m (repeat Start n)).
  { apply (rm_bound m k _ _ H). destruct e; simpl; unfold m; auto. }
  assert (T : todos m (repeat Start n) = n * (m + 4)).
  { unfold todos. clear. induction n as [|n IH]; [reflexivity|]. simpl. rewrite IH. lia. }
  lia.
Qed.
Print Assumptions C321_ends.
Theorem C321_goes_on : forall e ps i p, nth_error ps i = Some p -> p <> Ended -> p <> Failed ->
  exists s, rm_steps 1 (e, ps) s.
Proof.
  intros e ps i p H E F. destruct (rm_step e p) as [e' p'] eqn:S. eexists.
  eapply rm_more; [exact H|exact E|exact F|exact S|apply rm_none].
Qed.
Print Assumptions C321_goes_on.
(** Two processes and a directory of two files: the second falls behind and ends at a file that is gone. *)
Example C321_ex : exists ps, rm_steps 8 (Dir [7; 8], repeat Start 2) (Missing, ps) /\ ps = [Ended; Ended].
Proof.
  eexists. split; [|reflexivity].
  eapply (rm_more _ _ _ 0); [reflexivity|discriminate|discriminate|reflexivity|]. simpl.
  eapply (rm_more _ _ _ 1); [reflexivity|discriminate|discriminate|reflexivity|]. simpl.
  eapply (rm_more _ _ _ 0); [reflexivity|discriminate|discriminate|reflexivity|]. simpl.
  eapply (rm_more _ _ _ 1); [reflexivity|discriminate|discriminate|reflexivity|]. simpl.
  eapply (rm_more _ _ _ 0); [reflexivity|discriminate|discriminate|reflexivity|]. simpl.
  eapply (rm_more _ _ _ 1); [reflexivity|discriminate|discriminate|reflexivity|]. simpl.
  eapply (rm_more _ _ _ 0); [reflexivity|discriminate|discriminate|reflexivity|]. simpl.
  eapply (rm_more _ _ _ 0); [reflexivity|discriminate|discriminate|reflexivity|]. simpl.
  apply rm_none.
Qed.
