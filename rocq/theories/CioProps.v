(** C334-C342: files written and read by all ranks. *)
From Coq Require Import List Arith Bool Lia Permutation.
From Verif Require Import PyBase ColModel ColSpec ColProofs ColProofs2 CioModel CioSpec CioProofs CioProofs2 CioProofs3 CioProofs4.
Import ListNotations.
Open Scope nat_scope.

(** ** C334, C335: distributed groups to files *)
Theorem C334_written : forall S n names unicode (s : S), 0 < n -> (forall x, In x names -> unicode x = None) ->
  all_return (s, map (fun r => group_to_file n r true (Ok names) unicode) (seq 0 n)) n (fun _ x => x = Ok names).
Proof.
  intros S n names u s L H. eapply always_weaken; [|apply (to_all n true (Ok names) u L names s eq_refl)].
  intros t [E Q]. split; auto. intros r Lr. destruct (Q r Lr) as [x [Hx ->]]. eexists. split; [exact Hx|]. now rewrite (proj2 (first_error_none u names) H).
Qed.
(** If a dataset cannot be converted, or the format is unknown, all ranks raise. *)
Theorem C334_refused : forall S n known names unicode (s : S), 0 < n -> known = false \/ (exists x, In x names /\ unicode x <> None) ->
  all_return (s, map (fun r => group_to_file n r known (Ok names) unicode) (seq 0 n)) n (fun _ x => exists e, x = Err e).
Proof.
  intros S n known names u s L H. eapply always_weaken; [|apply (to_all n known (Ok names) u L names s eq_refl)].
  intros t [E Q]. split; auto. intros r Lr. destruct (Q r Lr) as [x [Hx ->]]. eexists. split; [exact Hx|]. destruct known; eauto.
  destruct H as [|[x [I N]]]; [discriminate|]. destruct (first_error u names) eqn:F; eauto. destruct (N (proj1 (first_error_none u names) F x I)).
Qed.
Print Assumptions C334_written.
Print Assumptions C334_refused.
Example C334_example :
  all_return (tt, map (fun r => group_to_file 3 r true (Ok [4; 6]) (fun x => if x =? 5 then Some TypeError else None)) (seq 0 3)) 3 (fun _ x => x = Ok [4; 6])
  /\ all_return (tt, map (fun r => group_to_file 3 r true (Ok [4; 5; 6]) (fun x => if x =? 5 then Some TypeError else None)) (seq 0 3)) 3 (fun _ x => exists e, x = Err e).
Proof.
  split.
  - apply C334_written; [lia|]. simpl. intros x [<-|[<-|[]]]; reflexivity.
  - apply C334_refused; [lia|]. right. exists 5. split; [simpl; auto|discriminate].
Qed.
Theorem C335_waits : forall S n known e unicode (s : S), 1 < n ->
  always (s, map (fun r => group_to_file n r known (Err e) unicode) (seq 0 n)) (fun t => returned t 0 (Err e) /\ forall r, 0 < r < n -> waits t r).
Proof. intros S n known e u s L. exact (to_fails n known (Err e) u ltac:(lia) e s eq_refl L). Qed.
Print Assumptions C335_waits.
Theorem C335_refuted : exists e, hangs (tt, map (fun r => group_to_file 2 r true (Err e) (fun _ => None)) (seq 0 2)).
Proof. exists FileNotFoundError. eapply always_weaken; [|apply C335_waits; lia]. intros t [_ H]. exists 1. apply H. lia. Qed.
Print Assumptions C335_refuted.

(** ** C336, C337: distributed groups from files *)
Theorem C336_same_tree : forall S n t m (s : S), 0 < n -> in_memory t = Ok m ->
  all_return (s, map (fun r => group_from_file n r t) (seq 0 n)) n (fun _ x => x = Ok m).
Proof. intros S n t m s L E. exact (from_all n L t m s E). Qed.
Print Assumptions C336_same_tree.
Definition a_file : ftree := FGrp [1] [(1, FCommon [2] (Ok [10; 11])); (2, FGrp [3] [(3, FDist [4] 7); (4, FCommon [] (Ok []))]); (5, FDist [] 8)].
Example C336_example :
  all_return (tt, map (fun r => group_from_file 3 r a_file) (seq 0 3)) 3 (fun _ x =>
    x = Ok (MGrp [1] [(1, MCommon [2] [10; 11]); (2, MGrp [3] [(3, MDist [4] 7); (4, MCommon [] [])]); (5, MDist [] 8)])).
Proof. apply C336_same_tree; [lia|]. reflexivity. Qed.
Theorem C337_waits : forall S n t e (s : S), 1 < n -> in_memory t = Err e ->
  always (s, map (fun r => group_from_file n r t) (seq 0 n)) (fun u => returned u 0 (Err e) /\ forall r, 0 < r < n -> waits u r).
Proof. intros S n t e s L E. exact (from_fails n ltac:(lia) t e s E L). Qed.
Print Assumptions C337_waits.
Theorem C337_refuted : exists t, hangs (tt, map (fun r => group_from_file 2 r t) (seq 0 2)).
Proof.
  exists (FGrp [] [(1, FDist [] 3); (2, FCommon [] (Err IndexError))]). eapply always_weaken; [|apply (C337_waits unit 2 (FGrp [] [(1, FDist [] 3); (2, FCommon [] (Err IndexError))]) IndexError tt ltac:(lia) eq_refl)].
  intros t [_ H]. exists 1. apply H. lia.
Qed.
Print Assumptions C337_refuted.

(** ** C338: to_zarr *)
Theorem C338_written : forall n create nbytes s0, 0 < n -> z_store s0 || create = true ->
  always (s0, map (fun r => to_zarr n r create (nbytes r)) (seq 0 n)) (fun t =>
    (forall r, r < n -> returned t r (Ok tt)) /\ z_store (fst t) = true /\ z_dset (fst t) = true /\ z_sync (fst t) = false
    /\ Permutation (z_parts (fst t)) (z_parts s0 ++ seq 0 n)).
Proof. intros n c nb s0 L H. exact (zarr_all n c nb s0 L H). Qed.
Theorem C338_missing : forall n nbytes s0, 0 < n -> z_store s0 = false ->
  always (s0, map (fun r => to_zarr n r false (nbytes r)) (seq 0 n)) (fun t => fst t = s0 /\ forall r, r < n -> returned t r (Err OtherException)).
Proof. intros n nb s0 L H. exact (zarr_missing n nb s0 L H). Qed.
Print Assumptions C338_written.
Print Assumptions C338_missing.
Example C338_example : always (mkz false false false [], map (fun r => to_zarr 3 r true 8) (seq 0 3)) (fun t => Permutation (z_parts (fst t)) [0; 1; 2]).
Proof. eapply always_weaken; [|apply (C338_written 3 true (fun _ => 8) (mkz false false false [])); [lia|reflexivity]]. intros t [_ [_ [_ [_ H]]]]. exact H. Qed.

(** ** C339, C340: _to_hdf5_serial *)
Theorem C339_written : forall n create axis0 s0, 0 < n -> h_open s0 = [] -> create || h_file s0 = true ->
  always (s0, map (fun r => to_hdf5_serial n r create axis0) (seq 0 n)) (fun t =>
    (forall r, r < n -> returned t r (Ok tt)) /\ h_file (fst t) = true /\ h_dset (fst t) = true /\ h_open (fst t) = [] /\ h_parts (fst t) = seq 0 n).
Proof. intros n c a s0 L O H. exact (serial_all n c a s0 L O H). Qed.
Theorem C339_one_at_a_time : forall n create axis0 s0, 0 < n -> h_open s0 = [] -> create || h_file s0 = true ->
  throughout (s0, map (fun r => to_hdf5_serial n r create axis0) (seq 0 n)) (fun s => length (h_open s) <= 1).
Proof. intros n c a s0 L O H. exact (serial_alone n c a s0 L O H). Qed.
Print Assumptions C339_written.
Print Assumptions C339_one_at_a_time.
Example C339_example : always (mkh true true [] [4; 4], map (fun r => to_hdf5_serial 3 r false false) (seq 0 3)) (fun t => h_parts (fst t) = [0; 1; 2]).
Proof. eapply always_weaken; [|apply (C339_written 3 false false (mkh true true [] [4; 4])); [lia|reflexivity|reflexivity]]. intros t [_ [_ [_ [_ H]]]]. exact H. Qed.
Theorem C340_waits : forall n axis0 s0, 0 < n -> h_file s0 = false ->
  always (s0, map (fun r => to_hdf5_serial n r false axis0) (seq 0 n)) (fun t =>
    fst t = s0 /\ returned t 0 (Err FileNotFoundError) /\ forall r, 0 < r < n -> forall x, ~ returned t r x).
Proof. intros n a s0 L H. exact (serial_missing n a s0 L H). Qed.
Print Assumptions C340_waits.
Theorem C340_refuted : exists s0, h_open s0 = [] /\
  always (s0, map (fun r => to_hdf5_serial 2 r false true) (seq 0 2)) (fun t => returned t 0 (Err FileNotFoundError) /\ forall x, ~ returned t 1 x).
Proof. exists (mkh false false [] []). split; auto. eapply always_weaken; [|apply (C340_waits 2 true (mkh false false [] []) ltac:(lia) eq_refl)]. intros t [_ [H1 H2]]. split; [exact H1|apply H2; lia]. Qed.
Print Assumptions C340_refuted.

(** ** C341, C342: lock_file *)
Theorem C341_moved_when_complete : forall n s0, 0 < n ->
  always (s0, map (fun r => save_distributed n r None) (seq 0 n)) (fun t =>
    (forall r, r < n -> returned t r (Ok tt)) /\ exists l, fst t = mkl None (Some l) false /\ Permutation l (seq 0 n)).
Proof. intros n s0 L. apply (lock_fine n (fun _ => None) s0 L). auto. Qed.
(** At all times, with any failures: the old file or the whole new one. *)
Theorem C341_never_half : forall n (fails : nat -> option exn) s0, 0 < n ->
  throughout (s0, map (fun r => save_distributed n r (fails r)) (seq 0 n)) (fun s =>
    l_final s = l_final s0 \/ exists l, l_final s = Some l /\ Permutation l (seq 0 n)).
Proof. intros n f s0 L. exact (lock_whole n f s0 L). Qed.
(** With a failure the old file stays. *)
Theorem C341_failure : forall n (fails : nat -> option exn) s0 q, 0 < n -> q < n -> fails q <> None ->
  always (s0, map (fun r => save_distributed n r (fails r)) (seq 0 n)) (fun t => l_final (fst t) = l_final s0 /\ exists e, returned t q (Err e)).
Proof. intros n f s0 q L Lq N. eapply always_weaken; [|apply (lock_failed n f s0 L); eauto]. intros t [H1 [H2 _]]. split; auto. Qed.
Print Assumptions C341_moved_when_complete.
Print Assumptions C341_never_half.
Print Assumptions C341_failure.
Example C341_example :
  always (mkl None (Some [9]) false, map (fun r => save_distributed 3 r None) (seq 0 3)) (fun t => exists l, l_final (fst t) = Some l /\ Permutation l [0; 1; 2])
  /\ always (mkl None (Some [9]) false, map (fun r => save_distributed 3 r (if r =? 1 then Some ValueError else None)) (seq 0 3)) (fun t => l_final (fst t) = Some [9]).
Proof.
  split.
  - eapply always_weaken; [|apply C341_moved_when_complete; lia]. intros t [_ [l [E H]]]. exists l. rewrite E. auto.
  - eapply always_weaken; [|apply (C341_failure 3 (fun r => if r =? 1 then Some ValueError else None) _ 1); [lia|lia|discriminate]]. intros t [H _]. exact H.
Qed.
(** If only others fail, rank 0 waits, and the temporary and the lock file stay. *)
Theorem C342_left_over : forall n (fails : nat -> option exn) s0 q, 0 < n -> q < n -> fails q <> None -> fails 0 = None ->
  always (s0, map (fun r => save_distributed n r (fails r)) (seq 0 n)) (fun t => waits t 0 /\ l_tmp (fst t) <> None /\ l_lock (fst t) = true).
Proof.
  intros n f s0 q L Lq N N0. eapply always_weaken; [|apply (lock_failed n f s0 L); eauto]. intros t [_ [_ [H3 [_ H5]]]]. destruct (H5 N0). split; auto.
  destruct (H3 0 L N0) as [W|[W _]]; auto. contradiction.
Qed.
Print Assumptions C342_left_over.
(** A group which is not distributed, saved by two ranks. *)
Theorem C342_refuted : exists s0 t, reach (s0, map save_local (seq 0 2)) t /\ stuck t /\ returned t 0 (Ok tt) /\ returned t 1 (Err FileNotFoundError).
Proof. exists (mkl None None false). apply solo_clash. Qed.
Print Assumptions C342_refuted.
