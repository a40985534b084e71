(** C41-C47, C85-C88: the task pipeline. *)
From Coq Require Import String.
From Coq Require Import List Ascii Bool Arith ZArith Lia Permutation.
From Verif Require Import PyBase PyStr PipeModel PipeSpec PipeProofs PipeProofs2 PipeProofs3 PipeProofs4 PipeProofs5 PipeProofs6 PipeProofs7.
Import ListNotations.
Open Scope list_scope.
Open Scope nat_scope.

(** * A small pipeline for the examples *)
(** Counts down from its state, one item per call. *)
Definition counter : beh nat nat := mkbeh
  (fun s _ => (s, Ret PNone))
  (fun s _ => match s with O => (0, Stop) | S n => (n, Ret (PObj s)) end)
  (fun s => (s, Ret PNone)).
(** Passes its arguments on, with the number of the call. *)
Definition relay : beh nat nat := mkbeh
  (fun s a => (s, Ret PNone))
  (fun s a => (s + 1, Ret (PTuple [PList (PObj s :: a)])))
  (fun s => (s, Ret PNone)).
(** Produces once, in [setup]. *)
Definition giver : beh nat nat := mkbeh
  (fun s _ => (s, Ret (PObj s)))
  (fun s _ => (s, Stop))
  (fun s => (s, Ret PNone)).
Definition all_keys : str -> bool := fun _ => true.
Definition src (k : string) (n : nat) : tconf nat nat * nat :=
  (mkconf (KMany []) (KMany []) (KOne (s_ k)) counter None 0, n).
Definition example_cfg : list (tconf nat nat * nat) :=
  [ src "a" 2; src "b" 3;
    (mkconf (KMany []) (KMany []) (KOne (s_ "r")) giver None 0, 7);
    (mkconf (KMany [s_ "a"; s_ "b"]) (KOne (s_ "r")) (KOne (s_ "c")) relay None 0, 0);
    (mkconf (KOne (s_ "c")) (KMany []) (KMany []) relay None 0, 0) ]%string.

Lemma example_producers_first : producers_first example_cfg.
Proof.
  intros i j k (c & [s Hc] & Hk) (d & [s' Hd] & Hk').
  do 5 (try destruct i as [|i]); do 5 (try destruct j as [|j]); try lia; cbn in Hc, Hd;
    try (destruct i; discriminate); try (destruct j; discriminate);
    injection Hc as <- _; injection Hd as <- _; cbn in Hk, Hk';
    repeat match goal with
           | H : _ \/ _ |- _ => destruct H
           | H : False |- _ => destruct H
           end; subst; try discriminate; lia.
Qed.

(** * C41: states only move forward *)
Theorem C41_lifecycle : forall V S (cfg : list (tconf V S * S)) km n tr r i c,
  run km n (start cfg) = (tr, r) -> conf_at cfg i c -> lifecycle (calls i tr).
Proof.
  intros V S cfg km n tr r i c H [s Hi]. rewrite calls_own.
  eapply shape_lifecycle. destruct (run_trace _ _ _ _ _ H) as [_ T]. apply (T i c s Hi).
Qed.
Print Assumptions C41_lifecycle.

Example C41_example :
  let (tr, r) := run all_keys 40 (start example_cfg) in
  calls 3 tr = [ESetup 3 [PObj 7] (Ret PNone);
                ENext 3 [PObj 2; PObj 3] (Ret (PTuple [PList [PObj 0; PObj 2; PObj 3]]));
                ENext 3 [PObj 1; PObj 2] (Ret (PTuple [PList [PObj 1; PObj 1; PObj 2]]));
                EFinish 3 (Ret PNone); ERemove 3] /\ r = Done.
Proof. vm_compute. split; reflexivity. Qed.

(** * C42: delivery *)
(** The j-th argument of the successive calls of [next] are the first items
    produced under the j-th key, in order; whatever the end of the run. *)
Theorem C42_in_order : forall V S (cfg : list (tconf V S * S)) km n tr r i c,
  run km n (start cfg) = (tr, r) -> conf_at cfg i c ->
  Forall (fun a => length a = length (klist (c_in c))) (next_args i tr) /\
  forall j k, nth_error (klist (c_in c)) j = Some k ->
    exists rest, products cfg km k tr = map (fun a => nth j a PNone) (next_args i tr) ++ rest.
Proof.
  intros V S cfg km n tr r i c H [s Hi]. rewrite <- nx_own.
  destruct (run_trace _ _ _ _ _ H) as [_ T]. apply (T i c s Hi).
Qed.
Print Assumptions C42_in_order.

(** While the queues of a task are open, they hold exactly the items produced
    and not yet taken. *)
Theorem C42_queues : forall V S (cfg : list (tconf V S * S)) km n tr m i t qs,
  run km n (start cfg) = (tr, Go m) -> task_at (tasks m) i = Some t -> t_in t = Some qs ->
  exists c, conf_at cfg i c /\ length qs = length (klist (c_in c)) /\
  forall j k q, nth_error (klist (c_in c)) j = Some k -> nth_error qs j = Some q ->
    products cfg km k tr = map (fun a => nth j a PNone) (next_args i tr) ++ q.
Proof.
  intros V S cfg km n tr m i t qs H Ht Hq. apply run_ok in H.
  destruct (slot_of _ _ _ _ _ _ H Ht) as (c & s & Hi & _ & (_ & _ & _ & _ & _ & _ & Q & _)).
  rewrite Hq in Q. rewrite <- nx_own. exists c. split; [now exists s|exact Q].
Qed.
Print Assumptions C42_queues.

(** [setup] is called with one item produced under each required key. *)
Theorem C42_requires : forall V S (cfg : list (tconf V S * S)) km n tr r i c a o,
  run km n (start cfg) = (tr, r) -> conf_at cfg i c -> In (ESetup i a o) tr ->
  length a = length (klist (c_req c)) /\ ~ In PNone a /\
  forall j k, nth_error (klist (c_req c)) j = Some k -> In (nth j a PNone) (products cfg km k tr).
Proof.
  intros V S cfg km n tr r i c a o H [s Hi] Hin.
  destruct (run_trace _ _ _ _ _ H) as [_ T]. destruct (T i c s Hi) as (_ & Ha & Hl).
  assert (Hin' : In (ESetup i a o) (own i tr)) by (apply own_in; auto).
  destruct (shape_in_setup _ _ Hl _ _ _ Hin') as (A & B & _). repeat split; auto.
  intros j k Hj. eapply Ha; eauto.
Qed.
Print Assumptions C42_requires.

Example C42_example :
  let (tr, r) := run all_keys 40 (start example_cfg) in
  products example_cfg all_keys (s_ "b") tr = [PObj 3; PObj 2; PObj 1] /\
  next_args 3 tr = [[PObj 2; PObj 3]; [PObj 1; PObj 2]] /\
  next_args 4 tr = [[PList [PObj 0; PObj 2; PObj 3]]; [PList [PObj 1; PObj 1; PObj 2]]].
Proof. vm_compute. repeat split; reflexivity. Qed.

(** * C43: closing *)
(** A task is moved on for lack of input only when all the tasks listed before
    it have been removed; so, with producers first, all its producers. *)
Theorem C43_closed_last : forall V S (cfg : list (tconf V S * S)) km n tr r a j b,
  run km n (start cfg) = (tr, r) -> tr = a ++ EStarve j :: b ->
  (forall i, i < j -> In (ERemove i) a) /\
  (producers_first cfg -> forall i k, produces cfg i k -> takes cfg j k -> In (ERemove i) a).
Proof.
  intros V S cfg km n tr r a j b H E.
  destruct (run_trace _ _ _ _ _ H) as [T _].
  split; [eauto|]. intros PF i k Hp Ht. apply (T a j b E). eapply PF; eauto.
Qed.
Print Assumptions C43_closed_last.

(** A task that was set up and does not stop by itself has, at the end, been
    called as often as items were produced under the scarcest of its keys. *)
Theorem C43_nothing_lost : forall V S (cfg : list (tconf V S * S)) km n tr i c a o,
  producers_first cfg -> run km n (start cfg) = (tr, Done) -> conf_at cfg i c ->
  In (ESetup i a o) tr -> (forall args, ~ In (ENext i args Stop) tr) -> c_limit c = None ->
  (exists k, In k (klist (c_in c)) /\ length (next_args i tr) = length (products cfg km k tr)) /\
  (forall k, In k (klist (c_in c)) -> length (next_args i tr) <= length (products cfg km k tr)).
Proof.
  intros V S cfg km n tr i c a o PF H [s Hi] Hse Hst Hl. split.
  - destruct (no_loss cfg km n tr i c s a o PF H Hi Hse Hst Hl) as (k & Hk & E). exists k. auto.
  - intros k Hk. apply In_nth_error in Hk as [j Hj].
    destruct (C42_in_order _ _ cfg km n tr _ i c H (ex_intro _ s Hi)) as [_ T].
    destruct (T j k Hj) as [rest ->]. rewrite app_length, map_length. lia.
Qed.
Print Assumptions C43_nothing_lost.

(** With one input, everything produced is consumed. *)
Theorem C43_single_input : forall V S (cfg : list (tconf V S * S)) km n tr i c a o k,
  producers_first cfg -> run km n (start cfg) = (tr, Done) -> conf_at cfg i c ->
  In (ESetup i a o) tr -> (forall args, ~ In (ENext i args Stop) tr) -> c_limit c = None ->
  klist (c_in c) = [k] -> next_args i tr = map (fun v => [v]) (products cfg km k tr).
Proof.
  intros V S cfg km n tr i c a o k PF H Hc Hse Hst Hl Hk.
  destruct (C43_nothing_lost _ _ cfg km n tr i c a o PF H Hc Hse Hst Hl) as [(k' & Hk' & E) _].
  rewrite Hk in Hk'. destruct Hk' as [<-|[]].
  destruct (C42_in_order _ _ cfg km n tr _ i c H Hc) as [F T].
  destruct (T 0 k) as [rest Hr]; [now rewrite Hk|].
  rewrite Hr in E |- *. rewrite app_length, map_length in E.
  assert (rest = []) as -> by (destruct rest; [auto|cbn in E; lia]).
  rewrite app_nil_r, map_map. rewrite <- (map_id (next_args i tr)) at 1.
  apply map_ext_in. intros x Hx. rewrite Forall_forall in F. specialize (F x Hx).
  rewrite Hk in F. destruct x as [|y [|z x]]; try discriminate. reflexivity.
Qed.
Print Assumptions C43_single_input.

(** With producers first, a run fails only because of what a task did: a
    method raised, or returned a value that does not fit its keys; or two items
    were produced under a required key; or the receiver had stopped by itself. *)
Theorem C43_failures : forall V S (cfg : list (tconf V S * S)) km n tr x,
  producers_first cfg -> run km n (start cfg) = (tr, Fail x) ->
  exists (tr' : list (event V)) (e : event V), tr = tr' ++ [e] /\
    (bad_call cfg x e \/
     exists k j c, x = PipelineRuntimeError /\ produces cfg (owner e) k /\ conf_at cfg j c /\
       ((In k (klist (c_req c)) /\ 2 <= length (products cfg km k tr)) \/
        (In k (klist (c_in c)) /\ stopped_itself cfg j tr))).
Proof. intros V S cfg km n tr x. exact (fail_causes cfg km n tr x). Qed.
Print Assumptions C43_failures.

Example C43_example :
  producers_first example_cfg /\
  let (tr, r) := run all_keys 40 (start example_cfg) in
  r = Done /\ next_args 4 tr = map (fun v => [v]) (products example_cfg all_keys (s_ "c") tr) /\
  length (next_args 4 tr) = 2.
Proof. split; [exact example_producers_first|]. vm_compute. repeat split; reflexivity. Qed.

(** Two items under a required key. *)
Example C43_failure_example :
  run all_keys 40 (start [src "a" 2; (mkconf (KMany []) (KOne (s_ "a")) (KMany []) relay None 0, 0)]) =
  ([ESetup 0 [] (Ret PNone); ENext 0 [] (Ret (PObj 2)); ESetup 1 [PObj 2] (Ret PNone);
    ENext 0 [] (Ret (PObj 1))], Fail PipelineRuntimeError).
Proof. vm_compute. reflexivity. Qed.

(** * C44: the order in the configuration matters *)
Definition sink (k : string) : tconf nat nat * nat :=
  (mkconf (KOne (s_ k)) (KMany []) (KMany []) relay None 0, 0).
(** Two orders of the same two tasks, both valid: in one the consumer gets two
    items, in the other none although they are produced. *)
Theorem C44_order_refuted : exists (t1 t2 : tconf nat nat * nat) (k : str),
  let spec (t : tconf nat nat * nat) :=
    mkspec (Some k) (Some (KList (map AStr (klist (c_in (fst t)))))) None
      (Some (KList (map AStr (klist (c_out (fst t)))))) in
  validate_task_inputs [spec t1; spec t2] = Ok tt /\
  validate_task_inputs [spec t2; spec t1] = Ok tt /\
  exists n tr n' tr',
    run all_keys n (start [t1; t2]) = (tr, Done) /\ run all_keys n' (start [t2; t1]) = (tr', Done) /\
    products [t1; t2] all_keys k tr = [PObj 2; PObj 1] /\ next_args 1 tr = [[PObj 2]; [PObj 1]] /\
    products [t2; t1] all_keys k tr' = [PObj 2; PObj 1] /\ next_args 0 tr' = [].
Proof.
  exists (src "a" 2), (sink "a"), (s_ "a").
  split; [reflexivity|]. split; [reflexivity|].
  exists 40, (fst (run all_keys 40 (start [src "a" 2; sink "a"]))),
         40, (fst (run all_keys 40 (start [sink "a"; src "a" 2]))).
  vm_compute. repeat split; reflexivity.
Qed.
Print Assumptions C44_order_refuted.

(** * C45: termination *)
Theorem C45_terminates : forall V S (cfg : list (tconf V S * S)) km,
  producers_first cfg -> sources_stop cfg ->
  exists n tr r, run km n (start cfg) = (tr, r) /\ match r with Go _ => False | _ => True end.
Proof. intros V S cfg km. exact (terminates cfg km). Qed.
Print Assumptions C45_terminates.

Example C45_example : producers_first example_cfg /\ sources_stop example_cfg.
Proof.
  split; [exact example_producers_first|]. intros i c s [s0 Hc] Hk.
  assert (C : forall s, stops_within (S s) counter s).
  { intros s1. induction s1 as [|s1 IH]; [exact I|]. cbn. exact IH. }
  assert (G : stops_within 1 giver s) by exact I.
  do 5 (destruct i as [|i]; [cbn in Hc; injection Hc as <- <-; cbn in Hk |- *; try discriminate; eauto|]).
  destruct i; discriminate.
Qed.

(** A valid pipeline with a task that feeds itself runs for ever. *)
Definition loop_task : tconf nat nat * nat :=
  (mkconf (KOne (s_ "a")) (KMany []) (KOne (s_ "a"))
     (mkbeh (fun s _ => (s, Ret (PObj 0))) (fun s a => (s, Ret (PObj 0))) (fun s => (s, Ret PNone))) None 0, 0).
Definition loop_state (z : Z) : mst nat nat :=
  mkmst [Some (mktask (fst loop_task) 0 SNext None (Some [[PObj 0]]) z)] 0 0.
Lemma loop_step : forall z, step all_keys (loop_state z) =
  ([ENext 0 [PObj 0] (Ret (PObj 0))], Go (loop_state (z + 1))).
Proof. intros z. cbv -[Z.add Z.mul Z.of_nat]. reflexivity. Qed.
Lemma loop_run : forall n z, snd (run all_keys n (loop_state z)) <> Done /\
  forall x, snd (run all_keys n (loop_state z)) <> Fail x.
Proof.
  induction n as [|n IH]; intros z; [cbn; split; discriminate|].
  rewrite run_S, loop_step. specialize (IH (z + 1)%Z).
  destruct (run all_keys n (loop_state (z + 1))) as [ev r]. exact IH.
Qed.
Theorem C45_cycle_never_ends : exists cfg : list (tconf nat nat * nat),
  validate_task_inputs [mkspec (Some (s_ "Loop")) (Some (KAtom (AStr (s_ "a")))) None
                               (Some (KAtom (AStr (s_ "a"))))] = Ok tt /\
  map (fun t => (c_in (fst t), c_out (fst t))) cfg = [(KOne (s_ "a"), KOne (s_ "a"))] /\
  forall n, exists tr m, run all_keys n (start cfg) = (tr, Go m).
Proof.
  exists [loop_task]. split; [reflexivity|]. split; [reflexivity|]. intros n.
  destruct n as [|n]; [cbn; eauto|].
  rewrite run_S. change (step all_keys (start [loop_task])) with
    ([ESetup 0 [] (Ret (PObj 0))], Go (loop_state 0)).
  pose proof (loop_run n 0) as [H1 H2].
  destruct (run all_keys n (loop_state 0)) as [ev [m| |x]]; cbn in *; eauto; exfalso; eauto.
  now apply (H2 x).
Qed.
Print Assumptions C45_cycle_never_ends.

(** * C46: validation *)
Theorem C46_validation_partial : forall l,
  (forall t, In t l -> ts_out t <> Some (KAtom ANone) /\
     (forall x, ts_in t <> Some (KTuple x)) /\ (forall x, ts_requires t <> Some (KTuple x))) ->
  (validate_task_inputs l = Ok tt <-> valid_specs l).
Proof. exact validate_plain. Qed.
Print Assumptions C46_validation_partial.

(** Two tasks whose [out] is null (no output) are taken for duplicates. *)
Theorem C46_null_output_refuted : exists l, valid_specs l /\
  validate_task_inputs l = Err CaputConfigError.
Proof.
  exists [mkspec (Some (s_ "A")) None None (Some (KAtom ANone));
          mkspec (Some (s_ "B")) None None (Some (KAtom ANone))].
  split; [|reflexivity]. split; [constructor|].
  intros t a [<-|[<-|[]]] [[]|[]].
Qed.
Print Assumptions C46_null_output_refuted.

Example C46_example :
  let a := AStr (s_ "a") in let b := AStr (s_ "b") in
  let p := mkspec (Some (s_ "P")) None None (Some (KList [a; b])) in
  let q := mkspec (Some (s_ "Q")) (Some (KAtom a)) (Some (KAtom b)) None in
  let q' := mkspec None (Some (KAtom a)) None None in
  validate_task_inputs [q; p] = Ok tt /\ validate_task_inputs [p; p] = Err CaputConfigError /\
  validate_task_inputs [q] = Err CaputConfigError /\ validate_task_inputs [q'] = Err KeyError.
Proof. repeat split; reflexivity. Qed.

(** * C47: limits *)
Theorem C47_limit_partial : forall V S (cfg : list (tconf V S * S)) km n tr r i c k,
  run km n (start cfg) = (tr, r) -> conf_at cfg i c -> c_limit c = Some k ->
  (1 <= k)%Z -> (Z.of_nat (outputs i tr) <= k)%Z.
Proof.
  intros V S cfg km n tr r i c k H [s Hi] Hk H1. rewrite <- outs_own.
  destruct (run_trace _ _ _ _ _ H) as [_ T]. destruct (T i c s Hi) as (_ & _ & Hl).
  assert (L : forall L s', life c L s' -> (Z.of_nat (outs L) <= k)%Z).
  { intros L s' HL. destruct (life_limits _ _ _ _ HL Hk). lia. }
  destruct Hl as [[s' Hl]|[(L' & e & E & He & Hl)|(L' & j & E & Hl)]].
  - eauto.
  - rewrite E. destruct e; try contradiction. rewrite outs_app.
    destruct (life_limits _ _ _ _ Hl Hk) as [A B]. specialize (B eq_refl).
    assert (outs [ENext i0 args r0] <= 1) by (destruct r0 as [[]| |]; cbn; lia). lia.
  - rewrite E, outs_app. cbn. specialize (L _ _ Hl). lia.
Qed.
Print Assumptions C47_limit_partial.

(** A limit of zero lets one output through. *)
Theorem C47_limit_zero_refuted : exists (cfg : list (tconf nat nat * nat)) n tr c,
  run all_keys n (start cfg) = (tr, Done) /\ conf_at cfg 0 c /\ c_limit c = Some 0%Z /\
  outputs 0 tr = 1.
Proof.
  exists [(mkconf (KMany []) (KMany []) (KOne (s_ "a")) counter (Some 0%Z) 0, 5)], 40.
  eexists. eexists. split; [vm_compute; reflexivity|].
  split; [eexists; reflexivity|]. split; reflexivity.
Qed.
Print Assumptions C47_limit_zero_refuted.

Example C47_example :
  let (tr, r) := run all_keys 40 (start [(mkconf (KMany []) (KMany []) (KOne (s_ "a")) counter (Some 3%Z) 0, 5)]) in
  outputs 0 tr = 3 /\ r = Done.
Proof. vm_compute. split; reflexivity. Qed.

(** * C85: signatures *)
(** A method with [nargs] positional parameters (with [self]), the last
    [ndefaults] of them optional, can be called with [n] arguments. *)
Definition callable (a : argspec) (n : nat) : Prop :=
  nargs a - ndefaults a - 1 <= n /\ (varargs a = true \/ n < nargs a).

Theorem C85_signatures : forall V S (in_ out requires : kraw) (sa na : argspec) (b : beh V S) lim base s t,
  setup_keys in_ out requires sa na b lim base s = Ok t ->
  callable sa (length (klist (c_req (t_conf t)))) /\
  callable na (length (klist (c_in (t_conf t)))) /\
  t = init_task (t_conf t, s).
Proof.
  intros V S in_ out requires sa na b lim base s t H. unfold setup_keys in H.
  destruct (format_product_keys requires) as [r|]; [|discriminate].
  destruct (format_product_keys in_) as [i|]; [|discriminate].
  destruct (format_product_keys out) as [o|]; [|discriminate]. cbn [rbind] in H.
  destruct (arity_ok sa (length (klist r))) as [[]|] eqn:E1; [|discriminate].
  destruct (arity_ok na (length (klist i))) as [[]|] eqn:E2; [|discriminate].
  cbn [rbind] in H. injection H as <-. cbn.
  split; [now apply arity_iff|]. split; [now apply arity_iff|reflexivity].
Qed.
Print Assumptions C85_signatures.

(** So every call in a run of accepted tasks fits the signatures. *)
Theorem C85_calls_fit : forall V S (cfg : list (tconf V S * S)) km n tr r i c sa na,
  run km n (start cfg) = (tr, r) -> conf_at cfg i c ->
  callable sa (length (klist (c_req c))) -> callable na (length (klist (c_in c))) ->
  (forall a o, In (ESetup i a o) tr -> callable sa (length a)) /\
  (forall a o, In (ENext i a o) tr -> callable na (length a)).
Proof.
  intros V S cfg km n tr r i c sa na H Hc HS HN. split; intros a o Hin.
  - destruct (C42_requires _ _ cfg km n tr r i c a o H Hc Hin) as [-> _]. exact HS.
  - destruct (C42_in_order _ _ cfg km n tr r i c H Hc) as [F _]. rewrite Forall_forall in F.
    rewrite (F a); auto. unfold next_args. apply in_flat_map. eexists. split; [exact Hin|].
    cbv beta iota. rewrite Nat.eqb_refl. left; auto.
Qed.
Print Assumptions C85_calls_fit.

(** What does not fit is refused, and so are keys that are not strings. *)
Theorem C85_refused : forall V S (in_ out requires : kraw) (sa na : argspec) (b : beh V S) lim base s e,
  setup_keys in_ out requires sa na b lim base s = Err e -> e = CaputConfigError /\
  (format_product_keys requires = Err e \/ format_product_keys in_ = Err e \/
   format_product_keys out = Err e \/
   (exists r, format_product_keys requires = Ok r /\ ~ callable sa (length (klist r))) \/
   (exists i, format_product_keys in_ = Ok i /\ ~ callable na (length (klist i)))).
Proof.
  assert (F : forall k e, format_product_keys k = Err e -> e = CaputConfigError).
  { intros [[]|l|l] e H; cbn in H; try congruence.
    destruct (all_strings l) as [|e0] eqn:E; [discriminate|]. cbn in H. injection H as ->.
    clear -E. revert e E. induction l as [|[] l IH]; intros e E; cbn in E; try congruence.
    destruct (all_strings l); [discriminate|]. injection E as ->. auto. }
  assert (A : forall a n e, arity_ok a n = Err e -> e = CaputConfigError /\ ~ callable a n).
  { intros a n e H. split.
    - unfold arity_ok in H. destruct (_ <? _)%Z; [congruence|]. destruct (_ && _); congruence.
    - intros C. apply arity_iff in C. congruence. }
  intros V S in_ out requires sa na b lim base s e H. unfold setup_keys in H.
  destruct (format_product_keys requires) as [r|e0] eqn:Er; cbn [rbind] in H;
    [|injection H as ->; split; eauto].
  destruct (format_product_keys in_) as [i|e0] eqn:Ei; cbn [rbind] in H;
    [|injection H as ->; split; eauto].
  destruct (format_product_keys out) as [o|e0] eqn:Eo; cbn [rbind] in H;
    [|injection H as ->; split; eauto].
  destruct (arity_ok sa (length (klist r))) as [[]|e0] eqn:E1; cbn [rbind] in H.
  - destruct (arity_ok na (length (klist i))) as [[]|e0] eqn:E2; cbn [rbind] in H; [discriminate|].
    injection H as ->. destruct (A _ _ _ E2). split; eauto 10.
  - injection H as ->. destruct (A _ _ _ E1). split; eauto 10.
Qed.
Print Assumptions C85_refused.

Example C85_example :
  let a := AStr (s_ "a") in
  let f in_ req := match setup_keys in_ (KAtom ANone) req (mkargs 2 0 false) (mkargs 3 1 false) counter None 0 0 with
                   | Ok _ => true | Err _ => false end in
  f (KList [a; a]) (KAtom a) = true /\ f (KAtom a) (KAtom a) = true /\ f (KList [a; a; a]) (KAtom a) = false /\
  f (KAtom ANone) (KAtom a) = false /\ f (KAtom a) (KAtom ANone) = false /\ f (KAtom (AInt 3)) (KAtom a) = false.
Proof. repeat split; reflexivity. Qed.

(** * C86: the choice of the next task *)
(** The documented order: an available task of highest priority, among these of
    highest base priority, among these the first from the current position on
    (in the order of the configuration, cyclically).  With none available it is
    the first task left. *)
Theorem C86_choice : forall V S (m : mst V S) i, idx m < length (tasks m) -> next_task m = Some i ->
  (exists j t, task_at (tasks m) j = Some t /\ is_available t = true) ->
  exists t, task_at (tasks m) i = Some t /\ is_available t = true /\
  forall j u, task_at (tasks m) j = Some u -> is_available u = true -> j <> i ->
    (priority u < priority t)%Z \/
    (priority u = priority t /\ (c_base (t_conf u) < c_base (t_conf t))%Z) \/
    (priority u = priority t /\ c_base (t_conf u) = c_base (t_conf t) /\
     (i + length (tasks m) - idx m) mod length (tasks m) < (j + length (tasks m) - idx m) mod length (tasks m)).
Proof.
  intros V S m i Hidx H (j0 & t0 & Ht0 & Ha0).
  assert (Hne : available m <> []).
  { intros E. assert (Hin : In j0 (available m)).
    { unfold available. apply filter_In. rewrite Ht0. split; auto.
      apply rotation_in. eapply task_at_lt; eauto. }
    rewrite E in Hin. destruct Hin. }
  destruct (chosen m i Hidx Hne H) as [(t & Ht & Ha) HC]. exists t. split; auto. split; auto.
  intros j u Hu Hau Hj. specialize (HC j u Hu Hau Hj). unfold sort_key, key_lt in HC.
  rewrite Ht, Hu in HC. cbn [fst snd] in HC.
  destruct HC as [[?|?]|[E ?]]; auto. injection E as -> ->. auto.
Qed.
Print Assumptions C86_choice.

(** The priority: for every waiting input which all input keys have, the number of
    inputs less that of outputs; a task without inputs counts as having one waiting;
    tasks to be finished go first. *)
Theorem C86_priority : forall V S (t : task V S),
  (forall qs q, t_state t = SNext -> t_in t = Some qs -> In q qs -> (forall p, In p qs -> length q <= length p) ->
     priority t = ((Z.of_nat (length (in_keys t)) - Z.of_nat (length (out_keys t))) * Z.of_nat (length q) + c_base (t_conf t))%Z) /\
  (t_state t = SNext -> t_in t = Some [] -> priority t = (Z.of_nat (length (in_keys t)) - Z.of_nat (length (out_keys t)) + c_base (t_conf t))%Z) /\
  (t_state t = SSetup -> forall rs, t_requires t = Some rs ->
     (~ In PNone rs -> priority t = (1 + c_base (t_conf t))%Z) /\ (In PNone rs -> priority t = c_base (t_conf t))) /\
  (t_state t <> SSetup -> t_state t <> SNext -> priority t = (10000000000 + c_base (t_conf t))%Z).
Proof.
  intros V S t. unfold priority. split; [|split; [|split]].
  - intros qs q -> -> I M. do 2 f_equal. f_equal. destruct qs as [|x qs]; [destruct I|]. cbn [map min_default].
    assert (L : forall l a, In a (a :: l) /\ (forall b, b = fold_left Nat.min l a -> In b (a :: l) /\ forall c, In c (a :: l) -> b <= c)).
    { induction l as [|y l IH]; intros a; (split; [now left|]); intros b ->; cbn [fold_left].
      - split; [now left|]. intros c [<-|[]]. lia.
      - destruct (IH (Nat.min a y)) as [_ H]. destruct (H _ eq_refl) as [H1 H2]. split.
        + destruct H1 as [H1|H1]; [|right; right; exact H1]. rewrite <- H1. destruct (Nat.min_spec a y) as [[_ ->]|[_ ->]]; [now left|right; now left].
        + intros c [<-|[<-|Hc]]; [|  |apply H2; now right]; (etransitivity; [apply H2; now left|lia]). }
    destruct (L (map (@length (pv V)) qs) (length x)) as [_ H]. destruct (H _ eq_refl) as [H1 H2]. apply Nat.le_antisymm.
    + apply H2. destruct I as [<-|I]; [now left|right; now apply in_map].
    + destruct H1 as [H1|H1]; [rewrite <- H1; apply M; now left|]. apply in_map_iff in H1 as (p & <- & Hp). apply M. now right.
  - intros -> ->. cbn [map min_default]. lia.
  - intros -> rs ->. split; intros H.
    + replace (forallb _ rs) with true; [reflexivity|]. symmetry. apply forallb_forall. intros r Hr. destruct r; try reflexivity. contradiction.
    + replace (forallb _ rs) with false; [reflexivity|]. symmetry. apply not_true_iff_false. intros F. rewrite forallb_forall in F. now apply F in H.
  - destruct (t_state t); try contradiction; reflexivity.
Qed.
Print Assumptions C86_priority.

Theorem C86_fallback : forall V S (cfg : list (tconf V S * S)) km n tr m i,
  run km n (start cfg) = (tr, Go m) -> next_task m = Some i ->
  (forall j t, task_at (tasks m) j = Some t -> is_available t = false) ->
  (exists t, task_at (tasks m) i = Some t) /\ forall j, j < i -> task_at (tasks m) j = None.
Proof.
  intros V S cfg km n tr m i H Hn Hno. apply run_ok in H. destruct H as (HL & HH & _).
  destruct (next_task_some m i HH Hn) as (t & Ht & _). split; [eauto|].
  assert (Hav : available m = []).
  { destruct (available m) as [|j l] eqn:E; auto. exfalso.
    assert (Hin : In j (available m)) by (rewrite E; left; auto).
    unfold available in Hin. apply filter_In in Hin as [_ Hin].
    destruct (task_at (tasks m) j) as [u|] eqn:Eu; [|discriminate].
    rewrite (Hno j u Eu) in Hin. discriminate. }
  rewrite (chosen_fallback m i HH Hav Hn). intros j Hj.
  destruct (task_at (tasks m) j) as [u|] eqn:Eu; auto. exfalso.
  apply (proj1 HH j Hj). apply shape_task_at; eauto.
Qed.
Print Assumptions C86_fallback.

Example C86_example :
  let mk b q := Some (mktask (mkconf (KOne (s_ "a")) (KMany []) (KMany []) relay None b) 0 SNext None (Some [q]) 0%Z) in
  next_task (mkmst [mk 0%Z [PObj 1; PObj 2]; mk 0%Z [PObj 1; PObj 2]; mk 1%Z [PObj 1]; mk (-1)%Z [PObj 1]; None] 0 1) = Some 2 /\
  next_task (mkmst [mk 0%Z [PObj 1]; mk 0%Z [PObj 1]; mk 0%Z []; None] 0 1) = Some 1 /\
  next_task (mkmst [mk 0%Z [PObj 1]; mk 0%Z [PObj 1]; mk 0%Z []; None] 0 2) = Some 0 /\
  next_task (mkmst [None; mk 0%Z []; mk 0%Z []] 1 2) = Some 1.
Proof. vm_compute. repeat split; reflexivity. Qed.

(** * C87: a completed run *)
Theorem C87_complete : forall V S (cfg : list (tconf V S * S)) km n tr i c,
  run km n (start cfg) = (tr, Done) -> conf_at cfg i c ->
  exists a b o, calls i tr = a ++ b ++ [EFinish i o; ERemove i] /\
    at_most_one is_setup a /\ Forall is_next b.
Proof.
  intros V S cfg km n tr i c H [s Hi].
  destruct (done_gone _ _ _ _ _ _ _ H Hi) as (L & j & EL & Hl & _).
  assert (Ho : forall e, In e (own i tr) -> owner e = i) by (intros e He; now apply own_in in He).
  assert (j = i) as ->.
  { apply (Ho (ERemove j)). rewrite EL. apply in_or_app; right; left; auto. }
  destruct (life_parts _ _ _ Hl) as (a & b & f & E & A & B & _ & _ & _ & G).
  destruct (G eq_refl) as (x & -> & Hx).
  rewrite calls_own, EL, filter_app, E. cbn.
  destruct x as [| |i' o| |]; try contradiction.
  assert (i' = i) as ->.
  { apply (Ho (EFinish i' o)). rewrite EL. apply in_or_app; left.
    assert (Hin : In (EFinish i' o) (filter ns L)).
    { rewrite E. apply in_or_app; right. apply in_or_app; right; left; auto. }
    now apply filter_In in Hin. }
  exists a, b, o. rewrite <- !app_assoc. auto.
Qed.
Print Assumptions C87_complete.

Example C87_example :
  (* the requirement is never produced: no setup, no next, but finish *)
  run all_keys 40 (start [(mkconf (KMany []) (KOne (s_ "a")) (KMany []) relay None 0, 0)]) =
  ([EStarve 0; EFinish 0 (Ret PNone); ERemove 0], Done).
Proof. vm_compute. reflexivity. Qed.

(** * C88: numbers of outputs *)
(** With several keys, a value with another number of items fails the run. *)
Theorem C88_counts_partial : forall V S (cfg : list (tconf V S * S)) km n tr r e i o c,
  run km n (start cfg) = (tr, r) -> In e tr -> returned e = Some (i, o) -> conf_at cfg i c ->
  2 <= length (klist (c_out c)) -> ~ fits (c_out c) o -> exists x, r = Fail x.
Proof.
  intros V S cfg km n tr r e i o c H Hin Hr Hc H2 Hf. destruct r as [m| |x]; [| |eauto]; exfalso.
  - assert (G : Forall (good cfg) tr) by (eapply run_good; eauto; discriminate).
    rewrite Forall_forall in G. apply Hf. eapply (G e Hin); eauto.
  - assert (G : Forall (good cfg) tr) by (eapply run_good; eauto; discriminate).
    rewrite Forall_forall in G. apply Hf. eapply (G e Hin); eauto.
Qed.
Print Assumptions C88_counts_partial.

Definition pairs_of : beh nat nat := mkbeh
  (fun s _ => (s, Ret PNone))
  (fun s _ => match s with O => (0, Stop) | S n => (n, Ret (PList [PObj s; PObj (s + 10)])) end)
  (fun s => (s, Ret PNone)).
(** With one key in a list, the documentation asks for a sequence of length 1,
    but two items are accepted and the second is dropped. *)
Theorem C88_single_key_refuted : exists (cfg : list (tconf nat nat * nat)) n tr e o c,
  run all_keys n (start cfg) = (tr, Done) /\ In e tr /\ returned e = Some (0, o) /\ conf_at cfg 0 c /\
  c_out c = KMany [s_ "a"] /\ ~ fits (c_out c) o /\ products cfg all_keys (s_ "a") tr = [PObj 1] /\
  o = PList [PObj 1; PObj 11].
Proof.
  exists [(mkconf (KMany []) (KMany []) (KMany [s_ "a"]) pairs_of None 0, 1)], 40.
  do 4 eexists. split; [vm_compute; reflexivity|]. split; [right; left; reflexivity|].
  split; [reflexivity|]. split; [eexists; reflexivity|]. split; [reflexivity|].
  split; [|split; reflexivity].
  intros [H|[H|[[s H]|(l & [H|H] & Hl)]]]; try discriminate. injection H as <-. discriminate.
Qed.
Print Assumptions C88_single_key_refuted.

Example C88_example :
  snd (run all_keys 40 (start [(mkconf (KMany []) (KMany []) (KMany [s_ "a"; s_ "b"; s_ "c"]) pairs_of None 0, 1)]))
  = Fail PipelineRuntimeError /\
  snd (run all_keys 40 (start [(mkconf (KMany []) (KMany []) (KMany [s_ "a"; s_ "b"]) pairs_of None 0, 1)]))
  = Done.
Proof. vm_compute. split; reflexivity. Qed.
