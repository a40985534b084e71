(** C35, C36, C81: lock_file. *)
From Coq Require Import String.
From Coq Require Import List Ascii Bool Arith Lia.
From Verif Require Import PyBase PyStr LockModel LockSpec LockProofs.
Import ListNotations.
Open Scope list_scope.

(** C35: at every crash point (every state of the trace) the final name holds
    what it held before or the complete new contents of a body that returned. *)
Theorem C35_final_name_atomic : forall s preserve f body raises r x,
  Outcome s f body raises r ->
  In x (s :: fst (with_lock s true preserve f body raises)) ->
  x f = s f \/ (r = None /\ x f = contents (s (tmpfile f)) body /\ x f <> None).
Proof.
  intros s preserve f body raises r x HO [<-|Hx]; [left; reflexivity|].
  destruct (with_lock_facts s preserve f body raises) as (r' & HR & H & _).
  rewrite (Outcome_fun _ _ _ _ _ _ HO HR). apply (H x Hx).
Qed.
Print Assumptions C35_final_name_atomic.

(** The temporary file never exists without the lock file, except when it is
    deliberately kept after a failure. *)
Theorem C35_lock_guards_temporary : forall s preserve f body raises r x,
  Outcome s f body raises r ->
  In x (fst (with_lock s true preserve f body raises)) -> x (tmpfile f) <> None ->
  x (lockfile f) <> None \/ (preserve = true /\ r <> None).
Proof.
  intros s preserve f body raises r x HO Hx Ht.
  destruct (with_lock_facts s preserve f body raises) as (r' & HR & H & _).
  rewrite (Outcome_fun _ _ _ _ _ _ HO HR). destruct (H x Hx) as (_ & _ & H3). apply H3, Ht.
Qed.
Print Assumptions C35_lock_guards_temporary.

Theorem C35_success_cleans_up : forall s preserve f body e,
  Outcome s f body None None -> contents (s (tmpfile f)) body <> None ->
  e = last (fst (with_lock s true preserve f body None)) s ->
  snd (with_lock s true preserve f body None) = None
  /\ e f = contents (s (tmpfile f)) body /\ e (tmpfile f) = None /\ e (lockfile f) = None.
Proof.
  intros s preserve f body e HO HC ->.
  destruct (with_lock_facts s preserve f body None) as (r' & HR & _ & H & _).
  rewrite <- (Outcome_fun _ _ _ _ _ _ HO HR) in H. apply H, HC.
Qed.
Print Assumptions C35_success_cleans_up.

Theorem C35_failure_cleans_up : forall s preserve f body raises x e,
  Outcome s f body raises (Some x) ->
  preserve = true \/ contents (s (tmpfile f)) body <> None ->
  e = last (fst (with_lock s true preserve f body raises)) s ->
  snd (with_lock s true preserve f body raises) = Some x
  /\ e f = s f /\ e (lockfile f) = None
  /\ e (tmpfile f) = (if preserve then contents (s (tmpfile f)) body else None).
Proof.
  intros s preserve f body raises x e HO HC ->.
  destruct (with_lock_facts s preserve f body raises) as (r' & HR & _ & H & _).
  rewrite <- (Outcome_fun _ _ _ _ _ _ HO HR) in H. cbv zeta in H. specialize (H HC). tauto.
Qed.
Print Assumptions C35_failure_cleans_up.

(** No other file is touched, at any point. *)
Theorem C35_other_files_untouched : forall s preserve f body raises x q,
  In x (fst (with_lock s true preserve f body raises)) ->
  q <> f -> q <> tmpfile f -> q <> lockfile f -> x q = s q.
Proof.
  intros s preserve f body raises x q Hx H1 H2 H3.
  destruct (with_lock_facts s preserve f body raises) as (r' & HR & H & _).
  destruct (H x Hx) as (_ & H4 & _). apply H4; assumption.
Qed.
Print Assumptions C35_other_files_untouched.

(** The other ranks of a communicator only run the body. *)
Theorem C35_other_ranks : forall s preserve f body raises x q,
  In x (fst (with_lock s false preserve f body raises)) -> q <> tmpfile f -> x q = s q.
Proof.
  intros s preserve f body raises x q Hx Hq. unfold with_lock in Hx. cbn [enter_ops exit_ops run] in Hx.
  unfold last_state in Hx. cbn [last] in Hx.
  pose proof (run_body f body s) as HB. destruct (run s (map (body_op f) body)) as (t, e).
  destruct HB as (H & _). cbn [fst app] in Hx. rewrite app_nil_r in Hx. apply (H x Hx q Hq).
Qed.
Print Assumptions C35_other_ranks.

Definition empty_fs : fs := fun _ => None.
Example C35_example :
  let '(t, e) := with_lock (upd empty_fs (s_ "d/x.h5") (Some [9])) true false (s_ "d/x.h5") [WOpen; WAppend 1; WAppend 2] None in
  map (fun s => (s (s_ "d/x.h5"), s (s_ "d/.x.h5"), s (s_ "d/.x.h5.lock"))) t
  = [(Some [9], None, Some []); (Some [9], Some [], Some []); (Some [9], Some [1], Some []);
     (Some [9], Some [1; 2], Some []); (Some [1; 2], None, Some []); (Some [1; 2], None, None)] /\ e = None.
Proof. vm_compute. auto. Qed.

(** C36.  True once the temporary file exists, or with preserve set... *)
Theorem C36_early_failure_partial : forall s preserve f body x e,
  Outcome s f body (Some x) (Some x) ->
  preserve = true \/ contents (s (tmpfile f)) body <> None ->
  e = last (fst (with_lock s true preserve f body (Some x))) s ->
  snd (with_lock s true preserve f body (Some x)) = Some x /\ e (lockfile f) = None.
Proof.
  intros s preserve f body x e HO HC He.
  destruct (C35_failure_cleans_up s preserve f body (Some x) x e HO HC He) as (A & _ & B & _). auto.
Qed.
Print Assumptions C36_early_failure_partial.

(** ... and always false otherwise: another exception appears and the lock
    stays. *)
Theorem C36_early_failure_always_wrong : forall s f body x e,
  contents (s (tmpfile f)) body = None ->
  e = last (fst (with_lock s true false f body (Some x))) s ->
  snd (with_lock s true false f body (Some x)) = Some FileNotFoundError /\ e (lockfile f) <> None.
Proof.
  intros s f body x e HC ->.
  destruct (with_lock_facts s false f body (Some x)) as (r' & HR & _ & _ & H).
  apply H; [exact HC|right; reflexivity].
Qed.
Print Assumptions C36_early_failure_always_wrong.

Theorem C36_early_failure_refuted : exists s f x,
  s (tmpfile f) = None /\ s (lockfile f) = None /\
  snd (with_lock s true false f [] (Some x)) <> Some x /\
  last (fst (with_lock s true false f [] (Some x))) s (lockfile f) <> None.
Proof.
  exists empty_fs, (s_ "x.h5"), ValueError. vm_compute. repeat split; discriminate.
Qed.
Print Assumptions C36_early_failure_refuted.

Example C36_example :
  snd (with_lock empty_fs true false (s_ "x.h5") [WOpen; WAppend 1] (Some ValueError)) = Some ValueError
  /\ snd (with_lock empty_fs true true (s_ "x.h5") [] (Some ValueError)) = Some ValueError
  /\ snd (with_lock empty_fs true false (s_ "x.h5") [] (Some ValueError)) = Some FileNotFoundError.
Proof. vm_compute. auto. Qed.

(** C81: the three names of one file are distinct and differ only in the last
    component. *)
Theorem C81_own_names_distinct : forall f,
  tmpfile f <> f /\ lockfile f <> f /\ lockfile f <> tmpfile f
  /\ tail_of slash (tmpfile f) = dot :: tail_of slash f
  /\ tail_of slash (lockfile f) = dot :: tail_of slash f ++ s_ ".lock".
Proof.
  intros f. destruct (names_distinct f) as (A & B & C).
  split; [exact A|]. split; [exact B|]. split; [exact C|]. split; [apply tail_tmpfile|apply tail_lockfile].
Qed.
Print Assumptions C81_own_names_distinct.

Theorem C81_names_private_partial : forall f g, f <> g -> ~ In slash f -> ~ In slash g ->
  (forall t, f <> dot :: t) -> (forall t, g <> dot :: t) ->
  (forall t, f <> t ++ s_ ".lock") -> (forall t, g <> t ++ s_ ".lock") ->
  forall n, In n [f; tmpfile f; lockfile f] -> In n [g; tmpfile g; lockfile g] -> False.
Proof. exact names_private. Qed.
Print Assumptions C81_names_private_partial.

Theorem C81_names_private_refuted : exists f g, f <> g /\ f <> tmpfile g /\ tmpfile f <> g
  /\ lockfile f = tmpfile g.
Proof. exists (s_ "a"), (s_ "a.lock"). repeat split; try discriminate. Qed.
Print Assumptions C81_names_private_refuted.

Example C81_example : tmpfile (s_ "/data/run/x.h5") = s_ "/data/run/.x.h5"
  /\ lockfile (s_ "x.h5") = s_ ".x.h5.lock".
Proof. vm_compute. auto. Qed.
