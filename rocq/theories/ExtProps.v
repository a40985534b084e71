(** C133-C139: one state per task, chains of tasks, and the base classes that
    read and write files. *)
From Coq Require Import String.
From Coq Require Import List Ascii Bool Arith ZArith Lia.
From Verif Require Import PyBase PyStr PipeModel PipeSpec PipeSpec2 PipeProofs PipeProofs3 PipeProofs4 PipeProofs5 PipeProofs6 PipeProofs8 PipeProofs9 PipeProps.
From Verif Require Import FmtModel ExtModel ExtSpec ExtProofs ExtProofs2.
Import ListNotations.
Open Scope list_scope.
Open Scope nat_scope.

(** * C133: one state per task *)
Theorem C133_one_state : forall V S (cfg : list (tconf V S * S)) km n tr r i c s,
  run km n (start cfg) = (tr, r) -> nth_error cfg i = Some (c, s) ->
  replay (c_beh c) s (own i tr).
Proof. intros V S cfg km n tr r i c s H Hi. exact (run_replay cfg km n tr r H i c s Hi). Qed.
Print Assumptions C133_one_state.

(** The state the task is left in while it is in the list. *)
Theorem C133_state : forall V S (cfg : list (tconf V S * S)) km n tr m i c s t,
  run km n (start cfg) = (tr, Go m) -> nth_error cfg i = Some (c, s) -> task_at (tasks m) i = Some t ->
  t_user t = state_after (c_beh c) s (own i tr).
Proof.
  intros V S cfg km n tr m i c s t H Hi Ht. eapply run_user; eauto.
Qed.
Print Assumptions C133_state.

(** Without requirements a task is set up, once and without arguments;
    without inputs as well it stops only by itself or at its limit. *)
Theorem C133_set_up : forall V S (cfg : list (tconf V S * S)) km n tr i c,
  run km n (start cfg) = (tr, Done) -> conf_at cfg i c -> klist (c_req c) = [] ->
  (exists r, In (ESetup i [] r) tr) /\
  (klist (c_in c) = [] -> c_limit c = None -> exists a, In (ENext i a Stop) tr).
Proof.
  intros V S cfg km n tr i c H [s Hi] Hq. split.
  - eapply set_up; eauto.
  - intros Hin Hl. eapply ends_itself; eauto.
Qed.
Print Assumptions C133_set_up.

Example C133_example :
  let (tr, r) := run all_keys 40 (start example_cfg) in
  own 1 tr = [ESetup 1 [] (Ret PNone); ENext 1 [] (Ret (PObj 3)); ENext 1 [] (Ret (PObj 2));
              ENext 1 [] (Ret (PObj 1)); ENext 1 [] Stop; EFinish 1 (Ret PNone); ERemove 1] /\
  state_after counter 3 (firstn 3 (own 1 tr)) = 1 /\
  replay counter 3 (own 1 tr) /\ ~ replay counter 2 (own 1 tr).
Proof.
  vm_compute. split; [reflexivity|]. split; [reflexivity|]. split; [tauto|].
  intros (_ & H & _). discriminate.
Qed.

(** * C134: from Input to Output *)
Theorem C134_chain : forall V (xs : list (pv V)) cb pin pout k fs km,
  NoDup (k :: map key fs) -> (forall x, In x (k :: map key fs) -> km x = true) ->
  Forall not_tuple xs -> Forall (fun x => forall v, not_tuple (fn x v)) fs ->
  exists n tr, run km n (start (chain xs cb pin pout k fs)) = (tr, Done) /\
    state_after (output_beh cb) [] (own (S (length fs)) tr) =
    map (fun v => match cb with Some f => f v | None => v end) (through (map fn fs) (some_of xs)).
Proof.
  intros V xs cb pin pout k fs km ND KM TX TF.
  destruct (C45_terminates _ _ (chain xs cb pin pout k fs) km
              (chain_producers_first xs cb pin pout k fs ND)
              (chain_sources_stop xs cb pin pout k fs)) as (n & tr & r & H & Hr).
  exists n, tr.
  pose proof (chain_no_fail xs cb pin pout k fs km ND n tr r H) as NF.
  destruct r as [m| |x]; [contradiction| |exfalso; now apply (NF x)].
  split; [exact H|]. apply (chain_outputs xs cb pin pout k fs km ND KM TX TF n tr Done H eq_refl).
Qed.
Print Assumptions C134_chain.

(** The same for every run that ends, whatever the number of turns. *)
Theorem C134_every_run : forall V (xs : list (pv V)) cb pin pout k fs km n tr r,
  NoDup (k :: map key fs) -> (forall x, In x (k :: map key fs) -> km x = true) ->
  Forall not_tuple xs -> Forall (fun x => forall v, not_tuple (fn x v)) fs ->
  run km n (start (chain xs cb pin pout k fs)) = (tr, r) ->
  (forall e, r <> Fail e) /\
  (r = Done -> state_after (output_beh cb) [] (own (S (length fs)) tr) =
     map (fun v => match cb with Some f => f v | None => v end) (through (map fn fs) (some_of xs))).
Proof.
  intros V xs cb pin pout k fs km n tr r ND KM TX TF H. split.
  - apply (chain_no_fail xs cb pin pout k fs km ND n tr r H).
  - intros E. apply (chain_outputs xs cb pin pout k fs km ND KM TX TF n tr r H E).
Qed.
Print Assumptions C134_every_run.

(** A tuple among the inputs is taken apart: only its first item arrives. *)
Theorem C134_tuple_taken_apart : exists (xs : list (pv nat)) n tr,
  run all_keys n (start (chain xs None 0 0 (s_ "a") [])) = (tr, Done) /\
  state_after (output_beh None) [] (own 1 tr) <> xs /\
  state_after (output_beh None) [] (own 1 tr) = [PObj 1].
Proof.
  exists [PTuple [PObj 1; PObj 2]], 20,
    (fst (run all_keys 20 (start (chain [PTuple [PObj 1; PObj 2]] None 0 0 (s_ "a") [])))).
  vm_compute. repeat split. discriminate.
Qed.
Print Assumptions C134_tuple_taken_apart.

Definition double (v : pv nat) : pv nat := match v with PObj n => PObj (2 * n) | _ => PNone end.
Definition odd_only (v : pv nat) : pv nat := match v with PObj n => if Nat.odd n then v else PNone | _ => v end.
Example C134_example :
  let fs := [(odd_only, s_ "b", 3%Z); (double, s_ "c", (-2)%Z)] in
  let (tr, r) := run all_keys 60 (start (chain [PObj 1; PNone; PObj 2; PObj 3; PObj 5] (Some double) 0 0 (s_ "a") fs)) in
  r = Done /\ state_after (output_beh (Some double)) [] (own 3 tr) = [PObj 4; PObj 12; PObj 20] /\
  through (map fn fs) (some_of [PObj 1; PNone; PObj 2; PObj 3; PObj 5]) = [PObj 2; PObj 6; PObj 10].
Proof. vm_compute. repeat split; reflexivity. Qed.

(** * C135: validation of tasks with files *)
Theorem C135_valid : forall c p n, validate c p n = Ok tt <-> plain_args p /\ one_source c p n.
Proof. exact validate_iff. Qed.
Print Assumptions C135_valid.

Theorem C135_error : forall c p n e, validate c p n = Err e -> e = CaputConfigError.
Proof. intros c p n e H. destruct (validate_err c p n) as [[u A]|A]; congruence. Qed.
Print Assumptions C135_error.

(** A validated task which is given an input if and only if it has an [in] key
    never runs into the errors the base classes raise themselves, as long as
    [IterBase] has names for the files it writes. *)
Theorem C135_no_internal_error : forall V U (E : env V U) c p n_in u (x : option V),
  no_runtime E -> validate c p n_in = Ok tt -> (x <> None <-> n_in = 1) ->
  (forall infile outfile done,
     snd (snd (single_next E c (no_input p) infile outfile (done, u) x)) <> Err RuntimeError) /\
  (forall middles inext outext i, output_root c = none_ \/ i < length middles ->
     snd (snd (iter_next E (mkit c middles inext outext) (no_input p) (i, u) x)) <> Err RuntimeError).
Proof.
  intros V U E c p n_in u x NR HV Hx. apply validate_iff in HV as [_ HS].
  assert (A : no_input p = true -> x = None).
  { intros Hn. apply Nat.eqb_eq in Hn. destruct x; [|reflexivity]. exfalso.
    assert (n_in = 1) by (apply Hx; discriminate). destruct HS as [(? & ? & ?)|[(? & ? & ?)|(? & ? & ?)]]; lia. }
  assert (B : no_input p = false -> x <> None \/ input_root c <> none_).
  { intros Hn. apply Nat.eqb_neq in Hn. destruct HS as [(? & ? & ?)|[(? & ? & ->)|(? & ? & ?)]]; [lia| |auto].
    left. apply Hx. reflexivity. }
  split.
  - intros infile outfile [|]; cbn [single_next]; [discriminate|].
    pose proof (cast_nr E NR x) as Ca. destruct (cast_part E x) as [y|e] eqn:Ec.
    + pose proof (rpw_nr E NR c (no_input p) u y (Some infile) (Some outfile)) as R.
      destruct (read_process_write E c (no_input p) u y (Some infile) (Some outfile)) as [u' z].
      apply R; [left; discriminate| |].
      * intros Hn. apply (cast_none E x y Ec). auto.
      * intros _. right. discriminate.
    + cbn. congruence.
  - intros middles inext outext i Ho. unfold iter_next. cbn [it_io it_middles it_inext it_outext].
    pose proof (cast_nr E NR x) as Ca.
    assert (G : forall fi fo, (fo <> None \/ output_root c = none_) -> (fi <> None \/ input_root c = none_) ->
      snd (snd (match cast_part E x with
       | Ok input =>
           let
           '(u', (l, r)) := read_process_write E c (no_input p) u input fi fo in
            (match r with
             | Ok _ => i + 1
             | Err _ => i
             end, u', (l, r))
       | Err e => ((i, u), ([], Err e))
       end)) <> Err RuntimeError).
    { intros fi fo Hfo Hfi. destruct (cast_part E x) as [y|e] eqn:Ec; [|cbn; congruence].
      pose proof (rpw_nr E NR c (no_input p) u y fi fo Hfo) as R.
      destruct (read_process_write E c (no_input p) u y fi fo) as [u' [l z]]. cbn [snd] in *.
      apply R.
      - intros Hn. apply (cast_none E x y Ec). auto.
      - intros Hn. destruct (B Hn) as [Bx|Bx].
        + left. intros ->. apply Bx. now apply (cast_none E x None Ec).
        + right. destruct Hfi; [auto|contradiction]. }
    destruct (nth_error middles i) as [m|] eqn:Em.
    + apply G; left; discriminate.
    + apply nth_error_None in Em. destruct Ho as [Ho|Ho]; [|lia].
      destruct (seqb (input_root c) none_) eqn:Es; cbn [negb].
      * apply G; [auto|]. right. now apply seqb_eq.
      * discriminate.
Qed.
Print Assumptions C135_no_internal_error.

Example C135_example :
  let p1 := mkproc 1 false false false false in let p0 := mkproc 0 false false false false in
  let none := s_ "None"%string in let disk := s_ "/data/"%string in
  validate (mkio none none) p1 1 = Ok tt /\ validate (mkio disk none) p1 0 = Ok tt /\
  validate (mkio none disk) p0 0 = Ok tt /\ validate (mkio disk none) p1 1 = Err CaputConfigError /\
  validate (mkio none none) p1 0 = Err CaputConfigError /\ validate (mkio disk none) p0 0 = Err CaputConfigError /\
  validate (mkio none none) (mkproc 1 false false false true) 1 = Err CaputConfigError.
Proof. vm_compute. repeat split; reflexivity. Qed.

(** * C136: IterBase *)
(** Reading from disk: as long as the calls succeed they read the files in the
    order of [file_middles], one each; then the task stops. *)
Theorem C136_reads : forall V U (E : env V U) c n u st ls,
  input_root (it_io c) <> none_ ->
  iter_calls E c false (0, u) (repeat None n) = (st, ls) -> Forall succeeded ls -> length ls = n ->
  n <= length (it_middles c) /\
  reads (all_effects ls) =
  map (fun m => e_expand E (input_root (it_io c) ++ m ++ it_inext c)) (firstn n (it_middles c)).
Proof.
  intros V U E c n u st ls Hr H F Hl.
  destruct (iter_calls_reads E c Hr n 0 u st ls H F (Nat.le_0_l _) Hl) as (_ & A & B).
  split; [lia|]. exact B.
Qed.
Print Assumptions C136_reads.

(** Each output goes to the file with the same middle part. *)
Theorem C136_writes : forall V U (E : env V U) c n u st ls,
  input_root (it_io c) <> none_ -> output_root (it_io c) <> none_ ->
  iter_calls E c false (0, u) (repeat None n) = (st, ls) -> Forall succeeded ls ->
  writes (all_effects ls) =
  flat_map (fun p => match snd (snd p) with
                     | Ok (Some v) => [(e_expand E (output_root (it_io c) ++ fst p ++ it_outext c), v)]
                     | _ => []
                     end) (combine (it_middles c) ls).
Proof. intros V U E c n u st ls Hr Ho H F. exact (iter_calls_writes E c Hr Ho n 0 u st ls H F). Qed.
Print Assumptions C136_writes.

(** Different middle parts give different names. *)
Theorem C136_names_differ : forall (root ext : str) ms, NoDup ms -> NoDup (map (fun m => root ++ m ++ ext) ms).
Proof.
  intros root ext ms H. induction H as [|m ms N _ IH]; cbn; constructor; auto.
  intros Hin. apply in_map_iff in Hin as (m' & E & Hm). apply app_inv_head, app_inv_tail in E. congruence.
Qed.
Print Assumptions C136_names_differ.

Theorem C136_stops : forall V U (E : env V U) c i u x, input_root (it_io c) <> none_ ->
  length (it_middles c) <= i -> iter_next E c false (i, u) x = ((i, u), ([], Err PipelineStopIteration)).
Proof. intros V U E c i u x Hr H. exact (iter_exhausted E c Hr i u x H). Qed.
Print Assumptions C136_stops.

(** After a failure the same file is read again. *)
Theorem C136_failure : forall V U (E : env V U) c i u m st l e,
  nth_error (it_middles c) i = Some m -> iter_next E c false (i, u) None = (st, (l, Err e)) ->
  fst st = i /\ reads l = [e_expand E (input_root (it_io c) ++ m ++ it_inext c)].
Proof.
  intros V U E c i u m [i' u'] l e Hm H.
  destruct (iter_next_files E c _ _ _ _ _ _ _ Hm H) as [A B]. split; [exact B|exact A].
Qed.
Print Assumptions C136_failure.

(** Without input a validated task never stops, whatever its list of names. *)
Theorem C139_endless_refuted : exists (c : itcfg) (p : procspec) (E : env nat nat),
  validate (it_io c) p 0 = Ok tt /\ length (it_middles c) = 1 /\
  forall n, exists st ls, iter_calls E c (no_input p) (0, 0) (repeat None n) = (st, ls) /\
    length ls = n /\ Forall (fun x => snd x = Ok (Some 7)) ls.
Proof.
  set (E := mkenv (fun u _ => (u, Ok (Some 7))) (fun _ => Err FileNotFoundError) (fun _ _ => Ok tt)
              (fun v => Ok v) (fun v => Ok true) (fun _ => true) (fun _ => Ok tt) (fun f => f) : env nat nat).
  exists (mkit (mkio (s_ "None") (s_ "None")) [s_ "a"] [] []), (mkproc 0 false false false false), E.
  split; [reflexivity|]. split; [reflexivity|]. intros n.
  set (c := mkit (mkio (s_ "None") (s_ "None")) [s_ "a"] [] []).
  assert (St : forall i, iter_next E c true (i, 0) None = ((i + 1, 0), ([], Ok (Some 7)))).
  { intros [|[|i]]; reflexivity. }
  change (no_input (mkproc 0 false false false false)) with true.
  assert (G : forall i, exists st ls, iter_calls E c true (i, 0) (repeat None n) = (st, ls) /\
    length ls = n /\ Forall (fun x => snd x = Ok (Some 7)) ls); [|exact (G 0)].
  induction n as [|n IH]; intros i; [exists (i, 0), []; repeat split; constructor|].
  cbn [repeat iter_calls]. rewrite St. destruct (IH (i + 1)) as (st & ls & A & B & C). rewrite A.
  exists st, (([], Ok (Some 7)) :: ls). repeat split; [cbn; lia|]. constructor; auto.
Qed.
Print Assumptions C139_endless_refuted.

Definition example_env : env nat nat :=
  mkenv (fun u x => (u + 1, Ok (match x with Some v => if v =? 2 then None else Some (v + u) | None => None end)))
    (fun f => Ok (length f)) (fun _ _ => Ok tt) (fun v => Ok v) (fun v => Ok true)
    (fun d => seqb d (s_ "out")) (fun _ => Ok tt) (fun f => f).
Example C136_example :
  let c := mkit (mkio (s_ "i") (s_ "out/")) [s_ "a"; []; s_ "bc"] (s_ "x") (s_ "y") in
  snd (iter_calls example_env c false (0, 10) (repeat None 4)) =
  [([ERead (s_ "iax"); EWrite (s_ "out/ay") 13], Ok (Some 13));
   ([ERead (s_ "ix")], Ok None);
   ([ERead (s_ "ibcx"); EWrite (s_ "out/bcy") 16], Ok (Some 16));
   ([], Err PipelineStopIteration)]%string.
Proof. vm_compute. reflexivity. Qed.

(** * C137: SingleBase *)
(** It works once: the first call does everything, later ones nothing, even if
    the first one failed. *)
Theorem C137_once : forall V U (E : env V U) c noin fi fo u x st o,
  single_next E c noin fi fo (false, u) x = (st, o) ->
  fst st = true /\
  (forall u' y, single_next E c noin fi fo (true, u') y = ((true, u'), ([], Err PipelineStopIteration))) /\
  (noin = false -> x = None -> reads (fst o) = [e_expand E (input_root c ++ fi)]) /\
  (forall v, snd o = Ok v -> writes (fst o) =
     match v with
     | Some w => if seqb (output_root c) (s_ "None") then [] else [(e_expand E (output_root c ++ fo), w)]
     | None => []
     end).
Proof.
  intros V U E c noin fi fo u x st [l r] H. unfold single_next in H.
  destruct (cast_part E x) as [y|e] eqn:Ec.
  - destruct (read_process_write E c noin u y (Some fi) (Some fo)) as [u' [l' r']] eqn:Er.
    injection H as <- <- <-. split; [reflexivity|]. split; [reflexivity|]. split.
    + intros -> ->. injection Ec as <-. apply read_process_write_reads in Er. exact Er.
    + intros v Hv. cbn in Hv. subst r'. apply read_process_write_writes in Er as [W _].
      cbn [fst]. rewrite W. unfold wrote. destruct v; reflexivity.
  - injection H as <- <- <-. split; [reflexivity|]. split; [reflexivity|]. split.
    + intros _ ->. discriminate.
    + discriminate.
Qed.
Print Assumptions C137_once.

(** With input from the pipeline nothing is read, unless the item is [None]:
    then a file called "None" is. *)
Theorem C137_pipeline_input : forall V U (E : env V U) c fi fo u v st l r,
  single_next E c false fi fo (false, u) (Some v) = (st, (l, r)) -> reads l = [].
Proof.
  intros V U E c fi fo u v st l r H. unfold single_next in H.
  destruct (cast_part E (Some v)) as [y|e] eqn:Ec; [|injection H as <- <- <-; reflexivity].
  destruct (read_process_write E c false u y (Some fi) (Some fo)) as [u' [l' r']] eqn:Er.
  injection H as <- <- <-. apply read_process_write_reads in Er. rewrite Er.
  destruct y; [reflexivity|]. exfalso.
  assert (Some v = None) by now apply (cast_none E _ _ Ec). discriminate.
Qed.
Print Assumptions C137_pipeline_input.

Theorem C139_none_item_refuted : exists (E : env nat nat) c p l r,
  validate c p 1 = Ok tt /\ input_root c = s_ "None" /\
  snd (single_next E c (no_input p) [] [] (false, 0) None) = (l, r) /\ reads l = [s_ "None"].
Proof.
  exists example_env, (mkio (s_ "None") (s_ "None")), (mkproc 1 false false false false).
  eexists _, _. repeat split.
Qed.
Print Assumptions C139_none_item_refuted.

Example C137_example :
  let c := mkio (s_ "in/") (s_ "out/") in
  let '(st, o) := single_next example_env c false (s_ "a.h5") (s_ "b.h5") (false, 10) None in
  o = ([ERead (s_ "in/a.h5"); EWrite (s_ "out/b.h5") 17], Ok (Some 17)) /\
  snd (single_next example_env c false (s_ "a.h5") (s_ "b.h5") st None) = ([], Err PipelineStopIteration).
Proof. vm_compute. split; reflexivity. Qed.

(** * C138: the file is written *)
(** The directory of the output is made if it is missing; a name without one
    cannot be written. *)
Theorem C138_no_directory : forall V U (E : env V U) c noin u x fi fo u' l o v,
  e_isdir E [] = false -> output_root c <> none_ -> ~ in_dir (e_expand E (output_root c ++ fo)) ->
  read_process_write E c noin u x fi (Some fo) = (u', (l, Ok o)) -> o <> Some v.
Proof.
  intros V U E c noin u x fi fo u' l o v Hd Ho Hin H ->.
  assert (W : forall w l' o', write_part E c (Some w) (Some fo) <> (l', Ok o')).
  { intros w l' o'. unfold write_part.
    destruct (seqb (output_root c) none_) eqn:X; [apply seqb_eq in X; contradiction|]. cbn [negb]. cbn zeta.
    apply dirname_nil in Hin. rewrite Hin, Hd. cbn. discriminate. }
  assert (Pr : forall x0 u1 l', process_part E c noin u x0 (Some fo) <> (u1, (l', Ok (Some v)))).
  { intros x0 u1 l' G. unfold process_part in G.
    destruct (noin && match x0 with Some _ => true | None => false end)%bool; [discriminate|].
    destruct (e_process E u (if noin then None else x0)) as [u2 [[w|]|e]]; [|discriminate|discriminate].
    injection G as _ G. now apply W in G. }
  unfold read_process_write in H. destruct x as [w|]; [now apply Pr in H|].
  destruct noin; [now apply Pr in H|]. destruct fi as [f|]; [|discriminate]. cbn zeta in H.
  destruct (e_read E (e_expand E (input_root c ++ f))) as [w|e]; [|discriminate].
  destruct (process_part E c false u (Some w) (Some fo)) as [u1 [l1 r1]] eqn:Ep.
  injection H as _ _ ->. now apply Pr in Ep.
Qed.
Print Assumptions C138_no_directory.

Theorem C138_current_directory_refuted : exists (E : env nat nat) c l,
  output_root c = [] /\ (forall f v, e_write E f v = Ok tt) /\ (forall d, e_mkdir E d = Ok tt) /\
  snd (single_next E c false (s_ "in.h5") (s_ "out.h5") (false, 0) (Some 5)) = (l, Err FileNotFoundError).
Proof.
  exists (mkenv (fun u x => (u, Ok x)) (fun f => Ok 0) (fun _ _ => Ok tt) (fun v => Ok v) (fun v => Ok true)
    (fun d => match d with [] => false | _ => true end) (fun _ => Ok tt) (fun f => f)), (mkio none_ []), [].
  repeat split.
Qed.
Print Assumptions C138_current_directory_refuted.

(** A group is never written by [GroupIOMixin]. *)
Theorem C138_group_never : forall isdir mkdir after fmt f o,
  writes (fst (group_write isdir mkdir after fmt f o)) = [] /\
  snd (group_write isdir mkdir after fmt f o) <> Ok tt.
Proof.
  intros isdir mkdir after fmt f o. unfold group_write, parent_dir. destruct fmt as [x|e]; [|split; [reflexivity|discriminate]].
  destruct (isdir (dirname f)); [split; [reflexivity|discriminate]|].
  destruct (dirname f) as [|ch d].
  - destruct (after []); split; try reflexivity; discriminate.
  - destruct (mkdir (ch :: d)) as [[]|e]; [split; [reflexivity|discriminate]|].
    destruct (after (ch :: d)); split; try reflexivity; discriminate.
Qed.
Print Assumptions C138_group_never.
Theorem C138_group_refuted : exists isdir mkdir after fmt f,
  fmt = Ok (Some HDF5) /\ isdir (dirname f) = true /\
  group_write isdir mkdir after fmt f OMemGroup = ([], Err OtherException).
Proof.
  exists (fun _ => true), (fun _ => Ok tt), (fun _ => true), (Ok (Some HDF5)), (s_ "/data/out.h5"). repeat split.
Qed.
Print Assumptions C138_group_refuted.

(** [ContainerIOMixin] writes containers, and nothing else, if there is or can
    be made a directory. *)
Theorem C138_container : forall isdir mkdir after save fmt f o,
  snd (container_write isdir mkdir after save fmt f o) = Ok tt <->
  (exists x, fmt = Ok x) /\ o = OContainer /\ save f o = Ok tt /\
  (~ in_dir f \/ isdir (dirname f) = true \/ mkdir (dirname f) = Ok tt \/ after (dirname f) = true).
Proof.
  intros isdir mkdir after save fmt f o. unfold container_write, parent_dir.
  destruct fmt as [x|e]. 2: { split; [discriminate|]. intros ((y & H) & _). discriminate. }
  pose proof (dirname_nil f) as DN.
  assert (G : forall l, snd (match o with
                | OContainer => match save f o with
                                | Ok _ => (l ++ [EWrite f o], Ok tt)
                                | Err e => (l, Err e)
                                end
                | _ => (l, Err RuntimeError)
                end) = Ok tt <-> o = OContainer /\ save f o = Ok tt).
  { intros l. destruct o; cbn; try (split; [discriminate|intros [H _]; discriminate]).
    destruct (save f OContainer) as [[]|e]; cbn; split; try tauto; try discriminate. }
  destruct (dirname f) as [|ch d] eqn:Ed.
  - rewrite G. assert (~ in_dir f) by now apply DN. split; [intros []; eauto 10|tauto].
  - assert (N : in_dir f \/ ~ in_dir f) by (unfold in_dir; destruct (in_dec ascii_dec "/"%char f); auto).
    assert (I : in_dir f) by (destruct N as [N|N]; [exact N|apply DN in N; discriminate]).
    destruct (isdir (ch :: d)) eqn:Ei.
    + rewrite G. split; [intros []; eauto 10|tauto].
    + destruct (mkdir (ch :: d)) as [[]|e] eqn:Em.
      * rewrite G. split; [intros []; eauto 10|tauto].
      * destruct (after (ch :: d)) eqn:Ea.
        -- rewrite G. split; [intros []; eauto 10|tauto].
        -- cbn. split; [discriminate|]. intros (_ & _ & _ & [H|[H|[H|H]]]); try discriminate. contradiction.
Qed.
Print Assumptions C138_container.

Example C138_example :
  dirname (s_ "/a/b//c.h5") = s_ "/a/b" /\ dirname (s_ "c.h5") = [] /\ dirname (s_ "//c") = s_ "//" /\
  container_write (fun _ => false) (fun _ => Ok tt) (fun _ => true) (fun _ _ => Ok tt) (Ok (Some HDF5)) (s_ "/a/c.h5") OContainer
  = ([EMkdir (s_ "/a"); EWrite (s_ "/a/c.h5") OContainer], Ok tt) /\
  snd (container_write (fun _ => false) (fun _ => Ok tt) (fun _ => true) (fun _ _ => Ok tt) (Ok (Some HDF5)) (s_ "c.h5") OOther)
  = Err RuntimeError.
Proof. vm_compute. repeat split; reflexivity. Qed.
