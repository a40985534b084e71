(** C165-C173: processors and memory of the machine, the filter of log
    messages, processes put to sleep. *)
From Coq Require Import String.
From Coq Require Import List Ascii Bool Arith ZArith Lia.
From Verif Require Import PyBase PyStr SysModel SysSpec SysProofs.
Import ListNotations.
Open Scope list_scope.
Open Scope nat_scope.

(** ** C165 *)

(** The cores of the machine are divided by the number of machines. *)
Theorem C165_nodes : forall k s n, 0 < k -> 0 < s ->
  cpu_count (Some (k * s)) (Some s) (Some n) = Ok (Some (n / k)).
Proof.
  intros k s n Hk Hs. unfold cpu_count. rewrite (proj2 (Nat.eqb_neq s 0)) by lia. cbn [rbind].
  rewrite Nat.div_mul by lia. now rewrite (proj2 (Nat.eqb_neq k 0)) by lia.
Qed.
Print Assumptions C165_nodes.

(** On any job an answer comes back, never more than the machine has. *)
Theorem C165_answers : forall sizes i s, Forall (fun n => 0 < n) sizes -> nth_error sizes i = Some s ->
  forall os_cpus, match os_cpus with
  | None => cpu_count (Some (list_sum sizes)) (Some s) None = Ok None
  | Some n => exists m, cpu_count (Some (list_sum sizes)) (Some s) (Some n) = Ok (Some m) /\ m <= n
  end.
Proof.
  intros sizes i s F E os_cpus.
  assert (S1 : 0 < s). { rewrite Forall_forall in F. apply F. now apply nth_error_In in E. }
  assert (S2 : s <= list_sum sizes).
  { clear F S1. revert i E. induction sizes as [|x l IH]; intros [|i] E; try discriminate; cbn [nth_error] in E;
      change (list_sum (x :: l)) with (x + list_sum l).
    - injection E as ->. lia.
    - apply IH in E. lia. }
  unfold cpu_count. rewrite (proj2 (Nat.eqb_neq s 0)) by lia. cbn [rbind].
  destruct os_cpus as [n|]; [|reflexivity].
  assert (D : 1 <= list_sum sizes / s) by (apply Nat.div_le_lower_bound; lia).
  rewrite (proj2 (Nat.eqb_neq _ 0)) by lia. eexists. split; [reflexivity|].
  apply Nat.div_le_upper_bound; [lia|]. nia.
Qed.
Print Assumptions C165_answers.

(** A process on its own has the whole machine. *)
Theorem C165_alone : forall n, cpu_count None None (Some n) = Ok (Some n) /\ cpu_count (Some 1) (Some 1) (Some n) = Ok (Some n).
Proof.
  intros n. unfold cpu_count. cbn [rbind Nat.eqb].
  change (1 / 1) with 1. cbn [Nat.eqb]. now rewrite Nat.div_1_r.
Qed.
Print Assumptions C165_alone.
Example C165_example : cpu_count (Some 8) (Some 2) (Some 40) = Ok (Some 10) /\ cpu_count (Some 7) (Some 4) (Some 40) = Ok (Some 40).
Proof. split; reflexivity. Qed.

(** ** C166 *)

(** The processes of a machine can be promised more cores than it has … *)
Theorem C166_share_refuted : exists sizes i s n m,
  Forall (fun k => 0 < k) sizes /\ nth_error sizes i = Some s /\
  cpu_count (Some (list_sum sizes)) (Some s) (Some n) = Ok (Some m) /\ n < s * m.
Proof. exists [8], 0, 8, 8, 8. repeat split; [repeat constructor|cbn; lia]. Qed.
Print Assumptions C166_share_refuted.

(** … and one alone on its machine can be given only a part of it. *)
Theorem C166_idle_refuted : exists sizes i s n m,
  Forall (fun k => 0 < k) sizes /\ nth_error sizes i = Some s /\
  cpu_count (Some (list_sum sizes)) (Some s) (Some n) = Ok (Some m) /\ s * (m + 1) <= n.
Proof. exists [1; 1; 1; 1], 2, 1, 8, 2. repeat split; [repeat constructor|cbn; lia]. Qed.
Print Assumptions C166_idle_refuted.

(** A shared communicator larger than the other one divides by zero. *)
Theorem C166_zero_refuted : exists c s n, 0 < c /\ 0 < s /\ cpu_count (Some c) (Some s) (Some n) = Err ZeroDivisionError.
Proof. exists 2, 4, 8. repeat split; lia. Qed.
Print Assumptions C166_zero_refuted.

(** Enough for all with at least as many machines as processes on each, and
    exact with equally many. *)
Theorem C166_share_partial : forall c s n, 0 < s -> s * s <= c ->
  exists m, cpu_count (Some c) (Some s) (Some n) = Ok (Some m) /\ s * m <= n /\ (c = s * s -> m = n / s).
Proof.
  intros c s n Hs H. unfold cpu_count. rewrite (proj2 (Nat.eqb_neq s 0)) by lia. cbn [rbind].
  assert (D : s <= c / s) by (apply Nat.div_le_lower_bound; lia).
  rewrite (proj2 (Nat.eqb_neq _ 0)) by lia. eexists. split; [reflexivity|]. split.
  - pose proof (Nat.mul_div_le n (c / s)) as M.
    assert (s * (n / (c / s)) <= c / s * (n / (c / s))) by (apply Nat.mul_le_mono_r; exact D).
    etransitivity; [exact H0|]. apply M. lia.
  - intros ->. f_equal. apply Nat.div_mul. lia.
Qed.
Print Assumptions C166_share_partial.
Example C166_example : cpu_count (Some 4) (Some 2) (Some 9) = Ok (Some 4).
Proof. reflexivity. Qed.

(** ** C167 *)

(** By machine: each process compares what it asks for with what is free. *)
Theorem C167_shared : forall mpi job node p a, p_avail p = Bytes a ->
  exists b, can_allocate (s_ "shared") mpi job node p = Answer b /\ (b = true <-> (p_req p < a)%Z).
Proof.
  intros mpi job node p a E. unfold can_allocate. rewrite E. cbn [seqb orb]. eexists. split; [reflexivity|].
  apply Z.ltb_lt.
Qed.
Print Assumptions C167_shared.

(** By process: the requests on the machine are added, and all its processes
    hear the same. *)
Theorem C167_process : forall job node p a, (forall q, In q node -> p_avail q = Bytes a) -> In p node ->
  exists b, (b = true <-> (total p_req node < a)%Z) /\
            forall q, In q node -> can_allocate (s_ "process") true job node q = Answer b.
Proof.
  intros job node p a H I. exists (total p_req node <? a)%Z. split; [apply Z.ltb_lt|].
  intros q Iq. unfold can_allocate. rewrite (H q Iq). cbn [negb].
  change (seqb (s_ "process") (s_ "shared")) with false. change (seqb (s_ "process") (s_ "process")) with true.
  cbn [orb]. replace (forallb readable node) with true.
  - now rewrite zsum_total.
  - symmetry. apply forallb_forall. intros x Ix. unfold readable. now rewrite (H x Ix).
Qed.
Print Assumptions C167_process.

(** Over the job: yes means that it fits into the sum of what is free on all
    machines; no, that it leaves less than one byte for each process. *)
Theorem C167_global : forall job (free : list process -> Z) node p,
  (forall n, In n job -> forall q, In q n -> p_avail q = Bytes (free n)) ->
  (forall n, In n job -> n <> []) -> In node job -> In p node ->
  exists b, can_allocate (s_ "global") true job node p = Answer b /\
    (b = true -> (p_req p < total free job)%Z) /\
    (b = false -> (total free job < p_req p + total (fun n => Z.of_nat (length n)) job)%Z).
Proof.
  intros job free node p H NE In1 In2. unfold can_allocate. rewrite (H node In1 p In2). cbn [negb].
  change (seqb (s_ "global") (s_ "shared")) with false. change (seqb (s_ "global") (s_ "process")) with false.
  change (seqb (s_ "global") (s_ "global")) with true. cbn [orb].
  replace (forallb (forallb readable) job) with true.
  2:{ symmetry. apply forallb_forall. intros n Hn. apply forallb_forall. intros q Hq. unfold readable. now rewrite (H n Hn q Hq). }
  rewrite zsum_total.
  assert (E : total (fun n => zsum (map (fun q => (bytes_of q / Z.of_nat (length n))%Z) n)) job
              = total (fun n => (free n / Z.of_nat (length n) * Z.of_nat (length n))%Z) job).
  { apply total_ext. intros n Hn. rewrite zsum_total, <- total_const. apply total_ext. intros q Hq.
    unfold bytes_of. now rewrite (H n Hn q Hq). }
  rewrite E. eexists. split; [reflexivity|].
  set (S1 := total (fun n => (free n / Z.of_nat (length n) * Z.of_nat (length n))%Z) job).
  assert (B1 : (S1 <= total free job)%Z).
  { apply total_le. intros n Hn. assert (0 < length n) by (destruct n; [now destruct (NE [] Hn)|cbn; lia]).
    pose proof (Z.mul_div_le (free n) (Z.of_nat (length n))). lia. }
  assert (B2 : (total free job < S1 + total (fun n => Z.of_nat (length n)) job)%Z).
  { assert (X : (total (fun n => free n + 1)%Z job <= S1 + total (fun n => Z.of_nat (length n)) job)%Z).
    { unfold S1. rewrite <- total_add. apply total_le. intros n Hn.
      assert (0 < length n) by (destruct n; [now destruct (NE [] Hn)|cbn; lia]).
      pose proof (Z.mod_pos_bound (free n) (Z.of_nat (length n)) ltac:(lia)).
      pose proof (Z.div_mod (free n) (Z.of_nat (length n)) ltac:(lia)). lia. }
    rewrite total_add, total_const in X. assert (0 < length job) by (destruct job; [contradiction|cbn; lia]). lia. }
  split; intros HB.
  - apply Z.ltb_lt in HB. lia.
  - apply Z.ltb_ge in HB. lia.
Qed.
Print Assumptions C167_global.
Example C167_example :
  let p r a := mkprocess r (Bytes a) in
  let job := [[p 5 11; p 5 11]; [p 9 8]]%Z in
  can_allocate (s_ "process") true job [p 5 11; p 5 11]%Z (p 5 11)%Z = Answer true /\
  can_allocate (s_ "process") true job [p 9 8]%Z (p 9 8)%Z = Answer false /\
  can_allocate (s_ "global") true job [p 9 8]%Z (p 9 8)%Z = Answer true /\
  can_allocate (s_ "shared") true job [p 9 8]%Z (p 9 8)%Z = Answer false.
Proof. repeat split. Qed.

(** ** C168 *)

Definition known (scope : str) : Prop := scope = s_ "shared" \/ scope = s_ "process" \/ scope = s_ "global".

(** An unknown scope is not always refused. *)
Theorem C168_scope_refuted : exists scope mpi job node p b, ~ known scope /\ In node job /\ In p node /\
  can_allocate scope mpi job node p = Answer b.
Proof.
  pose (p := mkprocess 1 (Bytes 2)). exists (s_ "procs"), false, [[p]], [p], p, true.
  split; [intros [H|[H|H]]; discriminate|]. repeat split; now left.
Qed.
Print Assumptions C168_scope_refuted.

(** It is by a process that has a communicator and knows its memory. *)
Theorem C168_scope_partial : forall scope job node p a, ~ known scope -> p_avail p = Bytes a ->
  can_allocate scope true job node p = Raised ValueError.
Proof.
  intros scope job node p a K E. unfold can_allocate. rewrite E. cbn [negb].
  assert (N : forall t, (t = s_ "shared" \/ t = s_ "process" \/ t = s_ "global") -> seqb scope t = false).
  { intros t T. destruct (seqb scope t) eqn:Q; [|reflexivity]. apply seqb_eq in Q. subst. exfalso. apply K. exact T. }
  rewrite !N by auto. reflexivity.
Qed.
Print Assumptions C168_scope_partial.

(** One process that cannot read its memory leaves the others waiting. *)
Theorem C168_answers_refuted : exists scope job node p q, known scope /\ In node job /\ In p node /\ In q node /\
  can_allocate scope true job node p = Answer true /\ can_allocate scope true job node q = Waits.
Proof.
  pose (p := mkprocess 1 Unreadable). pose (q := mkprocess 1 (Bytes 2)).
  exists (s_ "process"), [[p; q]], [p; q], p, q. split; [right; now left|].
  repeat split; cbn; auto.
Qed.
Print Assumptions C168_answers_refuted.

(** All answer if all can. *)
Theorem C168_answers_partial : forall scope mpi job node p, known scope -> In node job -> In p node ->
  (forall n q, In n job -> In q n -> exists a, p_avail q = Bytes a) ->
  exists b, can_allocate scope mpi job node p = Answer b.
Proof.
  intros scope mpi job node p K I1 I2 H. unfold can_allocate. destruct (H _ _ I1 I2) as [a ->].
  destruct (seqb scope (s_ "shared") || negb mpi) eqn:E; [eauto|].
  assert (R : forall n, In n job -> forallb readable n = true).
  { intros n In1. apply forallb_forall. intros q Iq. destruct (H _ _ In1 Iq) as [z Ez]. unfold readable. now rewrite Ez. }
  rewrite (R node I1).
  replace (forallb (forallb readable) job) with true by (symmetry; apply forallb_forall; auto).
  apply orb_false_iff in E as [E _].
  destruct K as [->|[->| ->]]; [discriminate|..]; cbn; eauto.
Qed.
Print Assumptions C168_answers_partial.
Example C168_example :
  let p := mkprocess 1 Malformed in
  can_allocate (s_ "shared") true [[p]] [p] p = Raised ValueError.
Proof. reflexivity. Qed.

(** ** C169 *)

(** Without a group the machine is asked. *)
Theorem C169_no_group : forall fs machine, available_memory_shared Missing fs machine = Bytes machine /\
  forall txt, absent (s_ "memory:") txt -> available_memory_shared (Text txt) fs machine = Bytes machine.
Proof.
  intros fs machine. split; [reflexivity|]. intros txt A. unfold available_memory_shared, find_first.
  rewrite (proj2 (after_none (s_ "memory:") txt ltac:(discriminate)) A). reflexivity.
Qed.
Print Assumptions C169_no_group.

Lemma visible_newline : forall p, (forall c, In c p -> visible c) -> ~ In newline p.
Proof. intros p H I. apply H in I. unfold visible, newline in I. cbn in I. lia. Qed.

Lemma group_of : forall pre path post, first_at (s_ "memory:") pre -> path_like path ->
  match find_first (s_ "memory:") (pre ++ s_ "memory:" ++ path ++ newline :: post) with
  | Some c => strip c | None => [slash] end = path.
Proof.
  intros pre path post F V. unfold find_first. rewrite after_first by (auto; discriminate).
  rewrite to_eol_line by (apply visible_newline, V).
  rewrite <- (app_nil_r path) at 1. now apply (strip_visible [] path []).
Qed.

(** In the group of the root the machine is asked as well. *)
Theorem C169_root : forall pre post fs machine, first_at (s_ "memory:") pre ->
  available_memory_shared (Text (pre ++ s_ "memory:" ++ [slash] ++ newline :: post)) fs machine = Bytes machine.
Proof.
  intros pre post fs machine F. unfold available_memory_shared. rewrite group_of; [reflexivity|exact F|].
  split; [discriminate|]. intros c [<-|[]]. unfold visible. cbn. lia.
Qed.
Print Assumptions C169_root.

(** In any other group: the limit less what is used. *)
Theorem C169_limit : forall pre path post fs machine stat1 stat2 limit used,
  first_at (s_ "memory:") pre -> path_like path -> path <> [slash] ->
  first_at (s_ "hierarchical_memory_limit") stat1 -> digit_list limit -> digit_list used ->
  fs (s_ "/sys/fs/cgroup/memory/" ++ path ++ s_ "/memory.stat")
    = Text (stat1 ++ s_ "hierarchical_memory_limit" ++ s_ " " ++ written limit ++ newline :: stat2) ->
  fs (s_ "/sys/fs/cgroup/memory/" ++ path ++ s_ "/memory.usage_in_bytes") = Text (written used ++ [newline]) ->
  available_memory_shared (Text (pre ++ s_ "memory:" ++ path ++ newline :: post)) fs machine
  = Bytes (number limit - number used).
Proof.
  intros pre path post fs machine stat1 stat2 limit used F V NR F2 DL DU E1 E2.
  unfold available_memory_shared. rewrite group_of by assumption.
  destruct (seqb path [slash]) eqn:Q; [apply seqb_eq in Q; congruence|].
  cbv zeta. rewrite <- !app_assoc, E1, E2.
  unfold find_first at 1. rewrite after_first by (auto; discriminate).
  rewrite (app_assoc (s_ " ") (written limit)). rewrite to_eol_line.
  2:{ intros I. apply in_app_or in I as [[I|[]]|I]; [discriminate|].
      revert I. apply visible_newline. now apply written_visible. }
  replace (s_ " " ++ written limit) with (s_ " " ++ written limit ++ []) by now rewrite app_nil_r.
  rewrite (py_int_written (s_ " ") [] limit) by (auto; reflexivity).
  change (written used ++ [newline]) with ([] ++ written used ++ [newline]).
  now rewrite (py_int_written [] [newline] used) by (auto; reflexivity).
Qed.
Print Assumptions C169_limit.

(** A group whose files cannot be read is an error. *)
Theorem C169_errors : forall pre path post fs machine, available_memory_shared Failed fs machine = Unreadable /\
  (first_at (s_ "memory:") pre -> path_like path -> path <> [slash] ->
   (forall t, fs (s_ "/sys/fs/cgroup/memory/" ++ path ++ s_ "/memory.stat") <> Text t) ->
   available_memory_shared (Text (pre ++ s_ "memory:" ++ path ++ newline :: post)) fs machine = Unreadable).
Proof.
  intros pre path post fs machine. split; [reflexivity|]. intros F V NR N.
  unfold available_memory_shared. rewrite group_of by assumption.
  destruct (seqb path [slash]) eqn:Q; [apply seqb_eq in Q; congruence|].
  cbv zeta. rewrite <- !app_assoc. destruct (fs _) eqn:E; [now destruct (N s)|reflexivity..].
Qed.
Print Assumptions C169_errors.
Example C169_example :
  let fs p := if seqb p (s_ "/sys/fs/cgroup/memory//job/memory.stat")
              then Text (s_ "cache 3" ++ newline :: s_ "hierarchical_memory_limit 5000" ++ newline :: s_ "rss 4")
              else if seqb p (s_ "/sys/fs/cgroup/memory//job/memory.usage_in_bytes") then Text (s_ "1200" ++ [newline]) else Missing in
  available_memory_shared (Text (s_ "5:cpu:/" ++ newline :: s_ "4:memory:/job" ++ [newline])) fs 77 = Bytes 3800.
Proof. reflexivity. Qed.

(** ** C170 *)

(** The limit of a group of version 2 is not looked at. *)
Theorem C170_v2_refuted : exists txt fs machine z,
  txt = s_ "0::/job" ++ [newline] /\ fs (s_ "/sys/fs/cgroup/job/memory.max") = Text (s_ "100" ++ [newline]) /\
  available_memory_shared (Text txt) fs machine = Bytes z /\ (100 < z)%Z.
Proof.
  exists (s_ "0::/job" ++ [newline]), (fun _ => Text (s_ "100" ++ [newline])), 5000%Z, 5000%Z.
  repeat split; lia.
Qed.
Print Assumptions C170_v2_refuted.

(** Nor that of a group shared with another controller listed after it. *)
Theorem C170_joined_refuted : exists txt fs machine z,
  txt = s_ "4:memory,hugetlb:/job" ++ [newline] /\
  fs (s_ "/sys/fs/cgroup/memory//job/memory.stat") = Text (s_ "hierarchical_memory_limit 100" ++ [newline]) /\
  available_memory_shared (Text txt) fs machine = Bytes z /\ (100 < z)%Z.
Proof.
  exists (s_ "4:memory,hugetlb:/job" ++ [newline]), (fun _ => Text (s_ "hierarchical_memory_limit 100" ++ [newline])), 5000%Z, 5000%Z.
  repeat split; lia.
Qed.
Print Assumptions C170_joined_refuted.

(** A group without a limit seems to have more than the machine. *)
Theorem C170_unlimited_refuted : exists txt fs machine z,
  txt = s_ "4:memory:/job" ++ [newline] /\
  fs (s_ "/sys/fs/cgroup/memory//job/memory.stat") = Text (s_ "hierarchical_memory_limit 9223372036854771712" ++ [newline]) /\
  available_memory_shared (Text txt) fs machine = Bytes z /\ (machine < z)%Z.
Proof.
  exists (s_ "4:memory:/job" ++ [newline]),
    (fun p => if seqb p (s_ "/sys/fs/cgroup/memory//job/memory.stat")
              then Text (s_ "hierarchical_memory_limit 9223372036854771712" ++ [newline]) else Text (s_ "1200")),
    5000%Z, (9223372036854771712 - 1200)%Z.
  repeat split.
Qed.
Print Assumptions C170_unlimited_refuted.

(** And if the limit is not reported, less than nothing is free. *)
Theorem C170_negative_refuted : exists txt fs machine z,
  (0 <= machine)%Z /\ available_memory_shared (Text txt) fs machine = Bytes z /\ (z < 0)%Z.
Proof.
  exists (s_ "4:memory:/job"), (fun p => Text (s_ "1200")), 5000%Z, (-1200)%Z. repeat split; lia.
Qed.
Print Assumptions C170_negative_refuted.

(** A yes is right about the free memory of the machine when the machine is
    asked. *)
Theorem C170_machine_partial : forall txt fs machine, absent (s_ "memory:") txt ->
  forall z, available_memory_shared (Text txt) fs machine = Bytes z -> z = machine.
Proof. intros txt fs machine A z E. rewrite (proj2 (C169_no_group fs machine) txt A) in E. congruence. Qed.
Print Assumptions C170_machine_partial.

(** ** C171 *)

(** The rank in the record, or that of the filter, decides which level counts. *)
Theorem C171_decision : forall f r k,
  (mpi_rank r = Some k \/ mpi_rank r = None /\ k = f_rank f) ->
  (fst (log_filter f r) = true <-> (k = 0 -> (level_rank0 f <= levelno r)%Z) /\ (k <> 0 -> (level_all f <= levelno r)%Z)).
Proof.
  intros f r k H. unfold log_filter.
  assert (E : fst (log_filter f r) = if k =? 0 then (level_rank0 f <=? levelno r)%Z else (level_all f <=? levelno r)%Z).
  { unfold log_filter. destruct H as [H|[H ->]]; rewrite H; cbn [andb].
    - cbn [fst]. now rewrite H.
    - destruct (add_mpi_info f); cbn [fst mpi_rank levelno]; [reflexivity|now rewrite H]. }
  unfold log_filter in E. rewrite E. destruct (Nat.eqb_spec k 0) as [->|N]; rewrite Z.leb_le; tauto.
Qed.
Print Assumptions C171_decision.

(** What is written into the record. *)
Theorem C171_record : forall f r,
  let r' := snd (log_filter f r) in
  levelno r' = levelno r /\ relative r' = relative r /\ elapsed r' = Some (relative r) /\
  (add_mpi_info f = true -> mpi_rank r = None -> mpi_rank r' = Some (f_rank f) /\ mpi_size r' = Some (f_size f)) /\
  (add_mpi_info f = false \/ mpi_rank r <> None -> mpi_rank r' = mpi_rank r /\ mpi_size r' = mpi_size r).
Proof.
  intros f r. cbv zeta. unfold log_filter. cbn [snd].
  destruct (mpi_rank r) as [k|] eqn:E; destruct (add_mpi_info f) eqn:A; cbn [andb];
    cbn [levelno relative elapsed mpi_rank mpi_size]; rewrite ?E;
    repeat split; intros; try congruence;
    repeat match goal with H : _ \/ _ |- _ => destruct H end; congruence.
Qed.
Print Assumptions C171_record.

(** The same filter again decides the same and changes nothing more. *)
Theorem C171_again : forall f r, log_filter f (snd (log_filter f r)) = log_filter f r.
Proof.
  intros f [lv [k|] sz el rel]; unfold log_filter; destruct (add_mpi_info f) eqn:A;
    cbn [snd mpi_rank mpi_size levelno elapsed relative andb]; reflexivity.
Qed.
Print Assumptions C171_again.
Example C171_example :
  let f k := mkfilter true 20 30 k 4 in
  let r := mkrecord 20 None None None 1500 in
  log_filter (f 0) r = (true, mkrecord 20 (Some 0) (Some 4) (Some 1500%Z) 1500) /\
  log_filter (f 3) r = (false, mkrecord 20 (Some 3) (Some 4) (Some 1500%Z) 1500) /\
  fst (log_filter (f 3) (snd (log_filter (f 0) r))) = true.
Proof. repeat split. Qed.

(** ** C172 *)

(** Process 0 writes once to each process that is not listed. *)
Theorem C172_targets : forall aprocs size,
  NoDup (close aprocs size 0) /\
  (forall i m, In (i, m) (close aprocs size 0) <-> m = Close /\ i < size /\ ~ In i aprocs) /\
  (forall r, r <> 0 -> close aprocs size r = []).
Proof.
  intros aprocs size. unfold close. cbn [Nat.eqb]. split; [|split].
  - apply FinFun.Injective_map_NoDup; [intros a b E; congruence|]. apply NoDup_filter, seq_NoDup.
  - intros i m. rewrite in_map_iff. split.
    + intros [x [E I]]. injection E as -> <-. apply filter_In in I as [I N]. apply in_seq in I.
      split; [reflexivity|]. split; [lia|]. intros J. apply existsb_In in J. now rewrite J in N.
    + intros (-> & L & N). exists i. split; [reflexivity|]. apply filter_In. split; [apply in_seq; lia|].
      destruct (existsb (Nat.eqb i) aprocs) eqn:E; [|reflexivity]. apply existsb_In in E. contradiction.
  - intros r N. now rewrite (proj2 (Nat.eqb_neq r 0) N).
Qed.
Print Assumptions C172_targets.

(** If process 0 is active, all return, and the sleepers have no message left. *)
Theorem C172_released : forall aprocs tasks size r, In 0 aprocs -> r < size ->
  Forall (fun t => snd t <> Close) tasks ->
  (~ In r aprocs -> session aprocs aprocs tasks size r = Some []) /\
  (In r aprocs -> session aprocs aprocs tasks size r = Some (inbox tasks r)).
Proof.
  intros aprocs tasks size r I0 L F. unfold session, sent.
  assert (A0 : active aprocs 0 [] = Some []) by (unfold active; now rewrite (proj2 (existsb_In 0 aprocs) I0)).
  rewrite A0, inbox_app, inbox_close by exact L. unfold active. split; intros H.
  - destruct (existsb (Nat.eqb r) aprocs) eqn:E; [apply existsb_In in E; contradiction|].
    apply wait_close_app. unfold inbox. apply Forall_forall. intros m I. apply in_map_iff in I as [t [<- I]].
    apply filter_In in I as [I _]. rewrite Forall_forall in F. now apply F.
  - rewrite (proj2 (existsb_In r aprocs) H). now rewrite app_nil_r.
Qed.
Print Assumptions C172_released.
Example C172_example : close [0; 2] 5 0 = [(1, Close); (3, Close); (4, Close)] /\
  session [0; 2] [0; 2] [(3, Other 7)] 5 3 = Some [] /\ session [0; 2] [0] [] 5 2 = Some [Close].
Proof. repeat split. Qed.

(** ** C173 *)

(** If process 0 is not active nobody is released. *)
Theorem C173_root_refuted : exists aprocs size r, r < size /\ (forall a, In a aprocs -> a < size) /\
  forall tasks, session aprocs aprocs tasks size r = None.
Proof.
  exists [1; 2], 4, 3. split; [lia|]. split; [intros a [<-|[<-|[]]]; lia|]. reflexivity.
Qed.
Print Assumptions C173_root_refuted.

Theorem C173_stuck : forall aprocs aprocs' tasks size r, ~ In 0 aprocs -> ~ In r aprocs ->
  session aprocs aprocs' tasks size r = None.
Proof.
  intros aprocs aprocs' tasks size r N0 N. unfold session, sent, active.
  destruct (existsb (Nat.eqb 0) aprocs) eqn:E; [apply existsb_In in E; contradiction|].
  destruct (existsb (Nat.eqb r) aprocs) eqn:E'; [apply existsb_In in E'; contradiction|]. reflexivity.
Qed.
Print Assumptions C173_stuck.
Example C173_example : session [1] [1] [] 2 0 = None /\ session [1] [1] [] 2 1 = Some [].
Proof. split; reflexivity. Qed.
