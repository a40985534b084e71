(** C68, C69, C107-C110: templates, jobs, systems, job scripts, environments. *)
From Coq Require Import String.
From Coq Require Import List Ascii Bool Arith ZArith Lia.
From Verif Require Import PyBase PyStr MemModel MemProofs2 AttrProofs CopyProofs ContProofs GlobModel RunModel RunSpec RunProofs.
Import ListNotations.
Open Scope list_scope.
Open Scope nat_scope.

(** * C68 *)
(** [str.format] is as specified. *)
Theorem C68_format : forall show_list s d r, format show_list s d = Ok r <-> Formats show_list (fun n => dget n d) s r.
Proof. intros show_list s d r. apply fmt_iff. Qed.
Print Assumptions C68_format.
(** All combinations, each once, in order; given the four settings of the run. *)
Theorem C68_all_partial : forall show_list run template d,
  NoDup (map fst d) -> (forall n vals, In (n, vals) d -> ~ In "="%char n /\ vals <> [] /\ forall v, In v vals -> ~ In ","%char v) ->
  (forall t, run t = Ok tt) ->
  (forall vs, Forall2 (fun v nv => In v (snd nv)) vs d -> exists t, Formats show_list (fun n => dget n (combine (map fst d) (map VStr vs))) template t) ->
  exists combos texts,
    template_run show_list run template (map (fun nv => fst nv ++ "="%char :: join ","%char (snd nv)) d) 4 [] = (texts, Ok tt) /\
    Forall2 (fun vs t => Formats show_list (fun n => dget n (combine (map fst d) (map VStr vs))) template t) combos texts /\
    (forall vs, In vs combos <-> Forall2 (fun v nv => In v (snd nv)) vs d) /\
    length combos = fold_right (fun nv k => length (snd nv) * k) 1 d /\
    (Forall (fun nv => NoDup (snd nv)) d -> NoDup combos).
Proof.
  intros show_list run template d N H R T. set (combos := product (map snd d)).
  assert (C : forall vs, In vs combos <-> Forall2 (fun v nv => In v (snd nv)) vs d).
  { intros vs. unfold combos. rewrite product_in. clear. revert vs. induction d as [|nv d IH]; intros vs; cbn [map].
    - split; intros F; inversion F; constructor.
    - split; intros F; inversion F as [|v l vs' l' I F']; subst; constructor; auto; now apply IH. }
  destruct (expand_all_ok show_list template (map fst d) (fun text => rbind (bind run_pipeline_params 5 []) (fun _ => run text)) combos) as (texts & E & F2).
  - intros vs I. destruct (T vs (proj1 (C vs) I)) as (t & Ht). exists t. now apply C68_format.
  - intros t. exact (R t).
  - exists combos, texts. split; [|split; [|split; [exact C|split]]].
    + unfold template_run. replace (from_template show_list template _ _) with (texts, @Ok unit tt); [reflexivity|]. symmetry. unfold from_template.
      change (map (fun nv => fst nv ++ "="%char :: join ","%char (snd nv)) d) with (map render d).
      rewrite vardict_render; [|exact N|exact H]. exact E.
    + clear - F2. induction F2; constructor; auto. now apply C68_format.
    + unfold combos. rewrite product_length. clear. induction d as [|nv d IH]; [reflexivity|]. cbn [map fold_right]. now rewrite IH.
    + intros Fd. apply product_nodup. clear - Fd. induction Fd; constructor; auto.
Qed.
Print Assumptions C68_all_partial.
(** A run that fails ends the loop: the combinations before it were run. *)
Theorem C68_failure : forall show_list body template var texts e, from_template show_list template var body = (texts, Err e) ->
  (vardict var [] = Err e /\ texts = []) \/
  exists d done rest, vardict var [] = Ok d /\ product (map snd d) = done ++ rest /\
    Forall2 (fun vs t => Formats show_list (fun n => dget n (combine (map fst d) (map VStr vs))) template t) done texts /\
    ((texts <> [] /\ body (last texts []) = Err e) \/ (exists vs rest', rest = vs :: rest' /\ format show_list template (combine (map fst d) (map VStr vs)) = Err e)).
Proof.
  intros show_list body template var texts e H. unfold from_template in H. destruct (vardict var []) as [d|e'] eqn:V; [|injection H as <- <-; left; auto].
  right. destruct (expand_all_fails _ _ _ _ _ _ _ H) as (dn & rest & P & F2 & _ & C). exists d, dn, rest. split; [reflexivity|]. split; [exact P|]. split.
  - clear - F2. induction F2; constructor; auto. now apply C68_format.
  - destruct (C e eq_refl) as [(t & <- & B & N)|K]; auto.
Qed.
Print Assumptions C68_failure.
(** A variable without a value is refused before anything is run. *)
Theorem C68_no_value : forall show_list body template var v, In v var -> ~ In "="%char v -> from_template show_list template var body = ([], Err ValueError).
Proof.
  intros show_list body template var v I N. unfold from_template. assert (X : forall d, vardict var d = Err ValueError); [|now rewrite X].
  induction var as [|w var IH]; [destruct I|]. intros d. cbn [vardict]. destruct I as [->|I].
  - apply cut_none in N. change equals with "="%char. now rewrite N.
  - destruct (cut equals w) as [[n vals]|]; [now apply IH|reflexivity].
Qed.
Print Assumptions C68_no_value.
(** The command never runs anything: it leaves out the settings of the run. *)
Theorem C68_command_refuted : exists template var, forall show_list run, cli_template_run show_list run template var = ([], Err TypeError).
Proof. exists (s_ "x: {a}"), [s_ "a=1,2"]. reflexivity. Qed.
Print Assumptions C68_command_refuted.
(** A variable given twice: the first values are not run. *)
Theorem C68_twice_refuted : exists template var, forall show_list run, (forall t, run t = Ok tt) ->
  template_run show_list run template var 4 [] = ([s_ "2"], Ok tt).
Proof. exists (s_ "{a}"), [s_ "a=1"; s_ "a=2"]. intros show_list run H. pose proof (H (s_ "2")) as H2. cbv in H2 |- *. now rewrite H2. Qed.
Print Assumptions C68_twice_refuted.
Example C68_example : let show_list := fun _ => [] in
  template_run show_list (fun _ => Ok tt) (s_ "{a}-{b} {{x}}") [s_ "a=1,2"; s_ "b=u=v,,w"] 4 [] =
    (map s_ ["1-u=v {x}"; "1- {x}"; "1-w {x}"; "2-u=v {x}"; "2- {x}"; "2-w {x}"]%string, Ok tt) /\
  template_run show_list (fun t => if seqb t (s_ "2") then Err RuntimeError else Ok tt) (s_ "{a}") [s_ "a=1,2,3"] 0 (map s_ ["psutil"; "profile"; "profiler"; "mpi_abort"]%string) = (map s_ ["1"; "2"]%string, Err RuntimeError) /\
  template_run show_list (fun _ => Ok tt) (s_ "{a} {c}") [s_ "a=1,2"] 4 [] = ([], Err KeyError) /\
  template_run show_list (fun _ => Ok tt) (s_ "opts: {}") [s_ "a=1,2"] 4 [] = ([], Err IndexError) /\
  template_run show_list (fun _ => Ok tt) (s_ "{a:d}") [s_ "a=1,2"] 4 [] = ([], Err ValueError) /\
  template_run show_list (fun _ => Ok tt) (s_ "{a") [s_ "a=1,2"] 4 [] = ([], Err ValueError).
Proof. repeat split. Qed.

(** * C69 *)
(** When an existing job is reused. *)
Theorem C69_reused_partial : forall fs w st o, dget w fs = Some st ->
  snd (create_job_directories fs w o) = fs /\
  (fst (create_job_directories fs w o) = true <-> o <> s_ "never" /\ ~ (o = s_ "failed" /\ exists c, st = Some c /\ Inside (s_ "FINISHED") c)).
Proof.
  intros fs w st o G. unfold create_job_directories. rewrite G. destruct (seqb o (s_ "never")) eqn:E.
  - apply seqb_eq in E. split; [reflexivity|]. split; [discriminate|]. intros [N _]. contradiction.
  - apply seqb_neq in E. destruct (seqb o (s_ "failed")) eqn:F; cbn [andb].
    + apply seqb_eq in F. destruct st as [c|].
      * destruct (infix (s_ "FINISHED") c) eqn:I; cbn [fst snd]; (split; [reflexivity|]).
        -- split; [discriminate|]. intros [_ N]. elim N. split; [exact F|]. exists c. split; [reflexivity|]. now apply infix_iff.
        -- split; [|reflexivity]. intros _. split; [exact E|]. intros (_ & c' & Ec & K). injection Ec as <-. apply infix_iff in K. congruence.
      * split; [reflexivity|]. split; [|reflexivity]. intros _. split; [exact E|]. intros (_ & c & Ec & _). discriminate.
    + apply seqb_neq in F. split; [reflexivity|]. split; [|reflexivity]. intros _. split; [exact E|]. intros (K & _). contradiction.
Qed.
Print Assumptions C69_reused_partial.
Theorem C69_new : forall fs w o, dget w fs = None -> create_job_directories fs w o = (true, dput w None fs).
Proof. intros fs w o G. unfold create_job_directories. now rewrite G. Qed.
Print Assumptions C69_new.
Definition in_place (e : event) : Prop :=
  match e with Queue j _ _ _ _ | Start j | Crash j | Finish j => workdir j = j_dir j end.
Lemma step_keeps : forall fs e fs' s w, in_place e -> step fs e = (fs', s) -> dget w fs <> None -> dget w fs' <> None.
Proof.
  intros fs e fs' s w P H G. destruct e as [j o sc m b|j|j|j]; cbn [step in_place] in *.
  - destruct (queue fs j o sc m b) as [[fs1 sub] r] eqn:Q. injection H as <- _. destruct (queue_cases _ _ _ _ _ _ _ _ _ Q) as (_ & _ & K & _). now rewrite K.
  - injection H as <- _. destruct (str_eq_dec w (workdir j)) as [->|N]; [rewrite dget_dput_same; discriminate|now rewrite dget_dput_other].
  - injection H as <- _. destruct (str_eq_dec w (workdir j)) as [->|N]; [rewrite dget_dput_same; discriminate|now rewrite dget_dput_other].
  - rewrite <- P, seqb_refl in H. injection H as <- _. destruct (str_eq_dec w (workdir j)) as [->|N]; [rewrite dget_dput_same; discriminate|now rewrite dget_dput_other].
Qed.
(** Whatever the jobs do: with "never" each directory is submitted at most once,
    and not at all if it was there. *)
Theorem C69_never_partial : forall es fs fs' l, Forall in_place es -> (forall j o s m b, In (Queue j o s m b) es -> o = s_ "never") ->
  history fs es = (fs', l) -> NoDup l /\ forall w, In w l -> dget w fs = None.
Proof.
  induction es as [|e es IH]; intros fs fs' l P O H; cbn [history] in H; [injection H as _ <-; split; [constructor|intros w []]|].
  inversion P as [|? ? Pe Pes]; subst. destruct (step fs e) as [fs1 s] eqn:S. destruct (history fs1 es) as [fs2 l2] eqn:Hs. injection H as _ <-.
  destruct (IH fs1 fs2 l2 Pes) as [N D]; [intros j o sc m b I; apply (O j o sc m b); now right|exact Hs|].
  assert (D' : forall w, In w l2 -> dget w fs = None).
  { intros w I. specialize (D w I). destruct (dget w fs) eqn:G; [|reflexivity]. exfalso. apply (step_keeps fs e fs1 s w Pe S); congruence. }
  destruct s as [w|]; [|auto]. destruct e as [j o sc m b|j|j|j]; cbn [step] in S; try discriminate.
  destruct (queue fs j o sc m b) as [[fsq sub] r] eqn:Q. injection S as -> S. destruct sub; [|discriminate]. injection S as <-.
  destruct (queue_cases _ _ _ _ _ _ _ _ _ Q) as (_ & K & _ & X). destruct (X eq_refl) as (_ & _ & Y).
  assert (G : dget (workdir j) fs = None). { destruct (dget (workdir j) fs) eqn:G; [|reflexivity]. exfalso. apply (proj1 (Y ltac:(congruence))). apply (O j o sc m b). now left. }
  split; [constructor; [|exact N]|].
  - intros I. specialize (D _ I). contradiction.
  - intros w [<-|I]; auto.
Qed.
Print Assumptions C69_never_partial.
(** A finished job is not submitted again with "failed" or "never". *)
Theorem C69_finished_partial : forall es fs fs' l w st, Forall in_place es -> dget w fs = Some (Some st) -> Inside (s_ "FINISHED") st ->
  (forall e, In e es -> match e with Queue j o _ _ _ => workdir j = w -> o = s_ "never" \/ o = s_ "failed" | Start j | Crash j | Finish j => workdir j <> w end) ->
  history fs es = (fs', l) -> ~ In w l /\ dget w fs' = Some (Some st).
Proof.
  induction es as [|e es IH]; intros fs fs' l w st P G F O H; cbn [history] in H; [injection H as <- <-; auto|].
  inversion P as [|? ? Pe Pes]; subst. destruct (step fs e) as [fs1 s] eqn:S. destruct (history fs1 es) as [fs2 l2] eqn:Hs. injection H as <- <-.
  assert (G1 : dget w fs1 = Some (Some st)).
  { pose proof (O e (or_introl eq_refl)) as Oe. destruct e as [j o sc m b|j|j|j]; cbn [step in_place] in *.
    - destruct (queue fs j o sc m b) as [[fsq sub] r] eqn:Q. injection S as -> _. destruct (queue_cases _ _ _ _ _ _ _ _ _ Q) as (_ & _ & K & _). rewrite K; congruence.
    - injection S as <- _. rewrite dget_dput_other; auto.
    - injection S as <- _. rewrite dget_dput_other; auto.
    - rewrite <- Pe, seqb_refl in S. injection S as <- _. rewrite dget_dput_other; auto. }
  destruct (IH fs1 fs2 l2 w st Pes G1 F) as [A B]; [intros e' I; apply O; now right|exact Hs|]. split; [|exact B].
  destruct s as [w'|]; [|exact A]. intros [->|I]; [|contradiction]. pose proof (O e (or_introl eq_refl)) as Oe. destruct e as [j o sc m b|j|j|j]; cbn [step] in S; try discriminate.
  destruct (queue fs j o sc m b) as [[fsq sub] r] eqn:Q. injection S as -> S. destruct sub; [|discriminate]. injection S as S. subst w. specialize (Oe eq_refl).
  destruct (queue_cases _ _ _ _ _ _ _ _ _ Q) as (_ & _ & _ & X). destruct (X eq_refl) as (_ & _ & Y). rewrite G in Y. destruct (Y ltac:(discriminate)) as [Y1 Y2].
  destruct Oe as [Oe|Oe]; [contradiction|]. exact (Y2 st eq_refl Oe F).
Qed.
Print Assumptions C69_finished_partial.
Definition job1 : job := mkjob (s_ "/out") None.
Definition job2 : job := mkjob (s_ "/out") (Some (s_ "/tmp/out")).
Definition q (j : job) (o : string) : event := Queue j (s_ o) (Ok tt) (Ok tt) true.
(** With "failed", a running job is submitted a second time. *)
Theorem C69_running_refuted : exists es, history [] es = ([(s_ "/out", Some (line "RUNNING"))], [s_ "/out"; s_ "/out"]) /\ es = [q job1 "failed"; Start job1; q job1 "failed"].
Proof. eexists. split; [|reflexivity]. reflexivity. Qed.
Print Assumptions C69_running_refuted.
(** And a job that still waits to be started. *)
Theorem C69_waiting_refuted : exists es, snd (history [] es) = [s_ "/out"; s_ "/out"] /\ es = [q job1 "never"; q job1 "failed"].
Proof. eexists. split; [|reflexivity]. reflexivity. Qed.
Print Assumptions C69_waiting_refuted.
(** With a temporary directory, a finished job is submitted again, even with
    "never". *)
Theorem C69_temporary_refuted : exists es, snd (history [] es) = [s_ "/tmp/out"; s_ "/tmp/out"] /\ es = [q job2 "never"; Start job2; Finish job2; q job2 "never"].
Proof. eexists. split; [|reflexivity]. reflexivity. Qed.
Print Assumptions C69_temporary_refuted.
(** A queue command that failed leaves a job directory, so that the corrected one
    does nothing, without an error. *)
Theorem C69_leftover_refuted : exists es, snd (history [] es) = [] /\ es = [Queue job1 (s_ "never") (Ok tt) (mail_options slurm (Some (s_ "a@b")) None) true; q job1 "never"] /\
  forall fs, exists fs', step fs (q job1 "always") = (fs', Some (s_ "/out")).
Proof.
  eexists. split; [|split; [reflexivity|]]; [reflexivity|]. intros fs. cbn [step q]. unfold queue, create_job_directories. destruct (dget (workdir job1) fs); eexists; reflexivity.
Qed.
Print Assumptions C69_leftover_refuted.
(** Mail: exactly the types of the system; none without an address. *)
Theorem C69_mail : forall y e t, mail_options y e t = Ok tt <-> e = None \/ y_mail y = None \/ exists t' l, t = Some t' /\ y_mail y = Some l /\ In t' l.
Proof.
  intros y e t. unfold mail_options. destruct e as [e|]; [|split; auto]. destruct (y_mail y) as [l|]; [|split; auto]. destruct t as [t|].
  - destruct (existsb (seqb t) l) eqn:E.
    + split; [|reflexivity]. intros _. right. right. apply existsb_exists in E as (x & I & E). apply seqb_eq in E. subst. eauto.
    + split; [discriminate|]. intros [H|[H|(t' & l' & Ht & Hl & I)]]; try discriminate. injection Ht as <-. injection Hl as <-. exfalso.
      assert (existsb (seqb t) l = true); [|congruence]. apply existsb_exists. exists t. split; [exact I|apply seqb_refl].
  - split; [discriminate|]. intros [H|[H|(t' & l' & Ht & _)]]; discriminate.
Qed.
Print Assumptions C69_mail.
Example C69_example : let crashed := [q job1 "never"; Start job1; Crash job1] in
  snd (history [] (crashed ++ [q job1 "never"; q job1 "failed"; Start job1; Finish job1; q job1 "failed"; q job1 "always"])) = [s_ "/out"; s_ "/out"; s_ "/out"] /\
  snd (history [] (crashed ++ [q job1 "never"])) = [s_ "/out"] /\ snd (history [] [q job1 "never"; Start job1; Finish job1; q job1 "failed"; q job1 "never"]) = [s_ "/out"].
Proof. repeat split. Qed.

(** * C107 *)
Definition Has (c : list (str * val)) (k : str) : Prop := exists v, dget k c = Some v.
Lemma missing_iff : forall req c, missing req c = false <-> forall k, In k req -> Has c k.
Proof.
  intros req c. unfold missing. rewrite negb_false_iff, forallb_forall. split; intros H k I.
  - specialize (H k I). apply existsb_exists in H as (x & J & E). apply seqb_eq in E. subst x. apply dget_in in J. exact J.
  - apply existsb_exists. exists k. split; [|apply seqb_refl]. apply dget_in. exact (H k I).
Qed.
(** The configuration of a registered system: accepted as it is exactly if it has
    the required keys. *)
Theorem C107_registered : forall reg c n y, dget (s_ "system") c = Some (VStr n) -> dget n reg = Some y ->
  ((forall k, In k (y_required y) -> Has c k) -> resolve_system_config reg (Some c) = Ok c) /\
  (~ (forall k, In k (y_required y) -> Has c k) -> resolve_system_config reg (Some c) = Err ValueError).
Proof.
  intros reg c n y S G. unfold resolve_system_config. rewrite S, G. cbn [rbind]. split; intros H.
  - rewrite (proj2 (missing_iff _ _) H). reflexivity.
  - destruct (missing (y_required y) c) eqn:M; [reflexivity|]. elim H. now apply missing_iff.
Qed.
Print Assumptions C107_registered.
(** Names of clusters stand for their systems. *)
Theorem C107_clusters : forall reg c n n' y, dget (s_ "system") c = Some (VStr n) -> dget n reg = None -> In (n, n') [(s_ "gpc", s_ "pbs"); (s_ "cedar", s_ "slurm"); (s_ "fir", s_ "slurm")] ->
  dget n' reg = Some y -> (forall k, In k (y_required y) -> Has c k) ->
  exists c', resolve_system_config reg (Some c) = Ok c' /\ dget (s_ "system") c' = Some (VStr n') /\ forall k, k <> s_ "system" -> dget k c' = dget k c.
Proof.
  intros reg c n n' y S G I G' H. exists (dput (s_ "system") (VStr n') c).
  assert (C : dget n clusters = Some n') by (destruct I as [E|[E|[E|[]]]]; injection E as <- <-; reflexivity).
  unfold resolve_system_config. rewrite S, G, C, G'. cbn [rbind]. replace (missing (y_required y) (dput (s_ "system") (VStr n') c)) with false.
  - split; [reflexivity|]. split; [apply dget_dput_same|]. intros k K. now apply dget_dput_other.
  - symmetry. apply missing_iff. intros k Ik. unfold Has. destruct (str_eq_dec k (s_ "system")) as [->|N]; [rewrite dget_dput_same; eauto|]. rewrite dget_dput_other by exact N. exact (H k Ik).
Qed.
Print Assumptions C107_clusters.
Theorem C107_no_section : forall reg, resolve_system_config reg None = Err KeyError.
Proof. reflexivity. Qed.
Print Assumptions C107_no_section.
(** Registered systems all have a script and a command. *)
Theorem C107_register : forall data reg mail reg' mail' r, register_system data reg mail = (reg', mail', r) ->
  (forall n y, dget n reg = Some y -> complete_system y = true) ->
  (forall n y, dget n reg' = Some y -> (exists s c, y_script y = Some s /\ y_command y = Some c)) /\
  (r = Ok tt <-> forall n y, In (n, y) data -> y_script y <> None /\ y_command y <> None) /\
  (NoDup (map fst data) -> r = Ok tt -> forall n y, In (n, y) data -> dget n reg' = Some y).
Proof.
  assert (CS : forall y, complete_system y = true <-> exists s c, y_script y = Some s /\ y_command y = Some c).
  { intros y. unfold complete_system. destruct (y_script y) as [s|], (y_command y) as [c|]; split; try discriminate; eauto; intros (? & ? & ? & ?); congruence. }
  induction data as [|[n y] data IH]; intros reg mail reg' mail' r H R; cbn [register_system] in H.
  - injection H as <- <- <-. split; [intros n y G; apply CS; eauto|]. split; [split; [intros _ n y []|reflexivity]|intros _ _ n y []].
  - destruct (complete_system y) eqn:C.
    + destruct (IH _ _ _ _ _ H) as (A & B & D).
      { intros m z G. destruct (str_eq_dec m n) as [->|N]; [rewrite dget_dput_same in G; injection G as <-; exact C|]. rewrite dget_dput_other in G by exact N. eauto. }
      split; [exact A|]. split.
      * rewrite B. apply CS in C as (s & c & Es & Ec). split; [|intros K m z I; apply (K m z); now right]. intros K m z [E|I]; [injection E as <- <-; split; congruence|eauto].
      * intros N Er m z [E|I]; inversion N as [|? ? N1 N2]; subst; [|apply D; auto]. injection E as <- <-.
        assert (K : forall data reg mail reg' mail', register_system data reg mail = (reg', mail', Ok tt) -> ~ In n (map fst data) -> dget n reg' = dget n reg).
        { clear. induction data as [|[k z] data IH]; intros reg mail reg' mail' H N; cbn [register_system] in H; [injection H as <- _; reflexivity|].
          destruct (complete_system z); [|discriminate]. rewrite (IH _ _ _ _ H) by (intros I; apply N; now right). apply dget_dput_other. intros ->. apply N. now left. }
        rewrite (K _ _ _ _ _ H N1). apply dget_dput_same.
    + injection H as <- <- <-. split; [intros m z G; apply CS; eauto|]. split; [|discriminate].
      split; [discriminate|]. intros K. destruct (K n y (or_introl eq_refl)) as [K1 K2]. exfalso. assert (complete_system y = true); [|congruence]. unfold complete_system.
      destruct (y_script y); [|congruence]. destruct (y_command y); congruence.
Qed.
Print Assumptions C107_register.
(** An unknown system is not reported with the error meant for it. *)
Theorem C107_unknown_refuted : exists c, resolve_system_config default_systems (Some c) = Err UnboundLocalError.
Proof. exists [(s_ "system", VStr (s_ "lsf"))]. reflexivity. Qed.
Print Assumptions C107_unknown_refuted.
(** The system is documented as optional. *)
Theorem C107_optional_refuted : exists c, (forall k, In k (y_required slurm) -> Has c k) /\ resolve_system_config default_systems (Some c) = Err KeyError.
Proof.
  exists (map (fun k => (k, VInt 1)) (y_required slurm)). split; [|reflexivity].
  intros k I. apply dget_in. rewrite map_map. rewrite map_id. exact I.
Qed.
Print Assumptions C107_optional_refuted.
(** A faulty file of systems is registered in part. *)
Theorem C107_partly_refuted : exists data reg mail, register_system data [] [] = (reg, mail, Err ValueError) /\ reg <> [].
Proof. exists [(s_ "a", slurm); (s_ "b", mksys None None None None [] None)]. do 2 eexists. split; [reflexivity|discriminate]. Qed.
Print Assumptions C107_partly_refuted.
Example C107_example : let c := [(s_ "system", VStr (s_ "gpc")); (s_ "name", VStr (s_ "j")); (s_ "nodes", VInt 2); (s_ "time", VInt 60); (s_ "directory", VStr (s_ "/o")); (s_ "ppn", VInt 8)] in
  resolve_system_config default_systems (Some c) = Err ValueError /\
  resolve_system_config default_systems (Some (c ++ [(s_ "queue", VNone)])) = Ok (dput (s_ "system") (VStr (s_ "pbs")) c ++ [(s_ "queue", VNone)]).
Proof. repeat split. Qed.

(** * C108 *)
Ltac looks := repeat (rewrite dget_dput_same || rewrite dget_dput_other by discriminate).
Section Script.
Variable show_list : list str -> str.
Variable resolve : str -> str.
Variable exists_ : str -> bool.
Definition computed : list str := map s_ ["modules"; "venv"; "mpiproc"; "workdir"; "finaldir"; "logpath"; "configpath"; "statuspath"; "usetemp"; "invoke"; "invoke_args"; "time"]%string.
(** The values the script is formatted with. *)
Lemma prepare_ok : forall y w f c c', prepare show_list resolve exists_ y w f c = Ok c' ->
  exists mods venv nodes pernode mp, module_string c = Ok mods /\ venv_path resolve exists_ c = Ok venv /\
    dget (s_ "nodes") c = Some nodes /\ dget (s_ "pernode") c = Some pernode /\ times nodes pernode = Ok mp /\
    dget (s_ "modules") c' = Some (VStr mods) /\ dget (s_ "venv") c' = Some (VStr venv) /\ dget (s_ "mpiproc") c' = Some mp /\
    dget (s_ "workdir") c' = Some (VStr w) /\ dget (s_ "finaldir") c' = Some (VStr f) /\
    dget (s_ "logpath") c' = Some (VStr (w ++ s_ "/job/jobout.log")) /\ dget (s_ "configpath") c' = Some (VStr (w ++ s_ "/job/config.yaml")) /\
    dget (s_ "statuspath") c' = Some (VStr (w ++ s_ "/job/STATUS")) /\ dget (s_ "usetemp") c' = Some (VInt (if str_eq_dec f w then 0 else 1)) /\
    dget (s_ "invoke") c' = Some (match dget (s_ "invoke") c with Some i => i | None => VStr (match y_invoke y with Some i => i | None => s_ "mpirun" end) end) /\
    (exists a, dget (s_ "invoke_args") c' = Some (VStr a) /\ (dget (s_ "invoke_args") c = None -> a = [])) /\
    dget (s_ "time") c' = option_map (fun t => VStr (show_val show_list t)) (dget (s_ "time") c) /\
    forall k, ~ In k computed -> dget k c' = dget k c.
Proof.
  intros y w f c c' H. unfold prepare in H. destruct (module_string c) as [mods|] eqn:M; [|discriminate]. cbn [rbind] in H.
  destruct (venv_path resolve exists_ c) as [venv|] eqn:V; [|discriminate]. cbn [rbind] in H. unfold get in H.
  rewrite !dget_dput_other in H by discriminate. destruct (dget (s_ "nodes") c) as [nodes|] eqn:Nd; [|discriminate]. cbn [rbind] in H.
  destruct (dget (s_ "pernode") c) as [pernode|] eqn:Pn; [|discriminate]. cbn [rbind] in H. destruct (times nodes pernode) as [mp|] eqn:T; [|discriminate]. cbn [rbind] in H.
  rewrite <- !app_assoc in H. exists mods, venv, nodes, pernode, mp. do 5 (split; [reflexivity || assumption|]).
  assert (U : (if seqb f w then 0 else 1)%Z = if str_eq_dec f w then 0%Z else 1%Z).
  { destruct (seqb f w) eqn:E; [apply seqb_eq in E|apply seqb_neq in E]; destruct (str_eq_dec f w); congruence. }
  rewrite U in H. clear U.
  set (c1 := dput (s_ "usetemp") _ _) in H.
  set (c2 := match dget (s_ "invoke") c1 with Some _ => c1 | None => _ end) in H.
  set (c3 := match dget (s_ "invoke_args") c2 with Some _ => c2 | None => _ end) in H.
  set (c4 := match dget (s_ "time") c3 with Some t => _ | None => c3 end) in H.
  destruct (dget (s_ "invoke_args") c4) as [[a| | | |]|] eqn:A; try discriminate.
  destruct (format show_list a c4) as [a'|] eqn:Fa; [|discriminate]. cbn [rbind] in H. injection H as <-.
  assert (L2 : forall k, k <> s_ "invoke" -> dget k c2 = dget k c1).
  { intros k K. unfold c2. destruct (dget (s_ "invoke") c1); [reflexivity|]. now rewrite dget_dput_other. }
  assert (L2i : dget (s_ "invoke") c2 = Some (match dget (s_ "invoke") c1 with Some i => i | None => VStr (match y_invoke y with Some i => i | None => s_ "mpirun" end) end)).
  { unfold c2. destruct (dget (s_ "invoke") c1) eqn:E; [exact E|]. now rewrite dget_dput_same. }
  assert (L3 : forall k, k <> s_ "invoke_args" -> dget k c3 = dget k c2).
  { intros k K. unfold c3. destruct (dget (s_ "invoke_args") c2); [reflexivity|]. now rewrite dget_dput_other. }
  assert (L3i : dget (s_ "invoke_args") c3 = Some (match dget (s_ "invoke_args") c2 with Some i => i | None => VStr [] end)).
  { unfold c3. destruct (dget (s_ "invoke_args") c2) eqn:E; [exact E|]. now rewrite dget_dput_same. }
  assert (L4 : forall k, k <> s_ "time" -> dget k c4 = dget k c3).
  { intros k K. unfold c4. destruct (dget (s_ "time") c3); [|reflexivity]. now rewrite dget_dput_other. }
  assert (L4i : dget (s_ "time") c4 = option_map (fun t => VStr (show_val show_list t)) (dget (s_ "time") c3)).
  { unfold c4. destruct (dget (s_ "time") c3) eqn:E; [|exact E]. now rewrite dget_dput_same. }
  clearbody c2 c3 c4. unfold c1 in *. clear c1.
  assert (Z : forall k, k <> s_ "invoke_args" -> dget k (dput (s_ "invoke_args") (VStr a') c4) = dget k c4) by (intros; now apply dget_dput_other).
  repeat match goal with |- _ /\ _ => split end.
  all: try (rewrite Z, L4, L3, L2 by discriminate; looks; reflexivity).
  - rewrite Z, L4, L3, L2i by discriminate. looks. reflexivity.
  - exists a'. rewrite dget_dput_same. split; [reflexivity|]. intros E. rewrite L4, L3i, L2 in A by discriminate. revert A. looks. rewrite E. intros A. injection A as <-. cbn in Fa. now injection Fa as <-.
  - rewrite Z, L4i, L3, L2 by discriminate. looks. reflexivity.
  - intros k K. assert (K' : forall s, In s computed -> k <> s) by (intros s I ->; contradiction).
    rewrite Z, L4, L3, L2 by (apply K'; cbn; tauto). rewrite !dget_dput_other by (apply K'; cbn; tauto). reflexivity.
Qed.
Lemma prepare_total : forall y w f c mods venv n p, module_string c = Ok mods -> venv_path resolve exists_ c = Ok venv ->
  dget (s_ "nodes") c = Some (VInt n) -> dget (s_ "pernode") c = Some (VInt p) -> dget (s_ "invoke_args") c = None ->
  exists c', prepare show_list resolve exists_ y w f c = Ok c'.
Proof.
  intros y w f c mods venv n p M V Hn Hp Ha. unfold prepare. rewrite M. cbn [rbind]. rewrite V. cbn [rbind]. unfold get.
  rewrite dget_dput_other by discriminate. rewrite dget_dput_other by discriminate. rewrite Hn. cbn [rbind].
  rewrite dget_dput_other by discriminate. rewrite dget_dput_other by discriminate. rewrite Hp. cbn [rbind times].
  set (c1 := dput (s_ "usetemp") _ _). set (c2 := match dget (s_ "invoke") c1 with Some _ => c1 | None => _ end).
  assert (A1 : dget (s_ "invoke_args") c1 = None) by (unfold c1; looks; exact Ha).
  assert (A2 : dget (s_ "invoke_args") c2 = None).
  { unfold c2. clearbody c1. destruct (dget (s_ "invoke") c1); [exact A1|]. rewrite dget_dput_other by discriminate. exact A1. }
  clearbody c2. rewrite A2. set (c3 := dput (s_ "invoke_args") (VStr []) c2). set (c4 := match dget (s_ "time") c3 with Some t => _ | None => c3 end).
  assert (A4 : dget (s_ "invoke_args") c4 = Some (VStr [])).
  { unfold c4. destruct (dget (s_ "time") c3); [rewrite dget_dput_other by discriminate|]; unfold c3; apply dget_dput_same. }
  clearbody c4. rewrite A4. cbn [rbind]. change (format show_list [] c4) with (@Ok str []). cbn [rbind]. eauto.
Qed.
End Script.
(** Job scripts of SLURM: a complete configuration with values of the right kinds
    gives a script. *)
Theorem C108_slurm_partial : forall show_list resolve exists_ w f c profile profiler psutil mods venv,
  (forall k, In k (map s_ ["name"; "mem"; "account"]%string) -> exists s, dget k c = Some (VStr s)) ->
  (forall k, In k (map s_ ["nodes"; "pernode"; "ompnum"]%string) -> exists z, dget k c = Some (VInt z)) ->
  dget (s_ "time") c <> None -> dget (s_ "invoke_args") c = None -> (forall v, dget (s_ "invoke") c = Some v -> exists s, v = VStr s) ->
  module_string c = Ok mods -> venv_path resolve exists_ c = Ok venv ->
  exists c' text, prepare show_list resolve exists_ slurm w f (forward profile profiler psutil c) = Ok c' /\
    resolve_job_script show_list resolve exists_ slurm w f (forward profile profiler psutil c) = Ok text /\
    Formats show_list (fun n => dget n c') slurm_script text.
Proof.
  intros show_list resolve exists_ w f c profile profiler psutil mods venv HS HI HT HA HV HM HE.
  set (c0 := forward profile profiler psutil c).
  assert (F0 : forall k, ~ In k (map s_ ["profile"; "profiler"; "psutil"]%string) -> dget k c0 = dget k c).
  { intros k K. assert (K' : forall s, In s (map s_ ["profile"; "profiler"; "psutil"]%string) -> k <> s) by (intros s I ->; contradiction).
    unfold c0, forward. rewrite !dget_dput_other by (apply K'; cbn; tauto). reflexivity. }
  assert (FP : exists a b d, dget (s_ "profile") c0 = Some (VStr a) /\ dget (s_ "profiler") c0 = Some (VStr b) /\ dget (s_ "psutil") c0 = Some (VStr d)).
  { unfold c0, forward. do 3 eexists. looks. repeat split. }
  destruct (HI (s_ "nodes")) as [nodes Hn]; [cbn; tauto|]. destruct (HI (s_ "pernode")) as [pernode Hp]; [cbn; tauto|].
  assert (M0 : module_string c0 = Ok mods). { unfold module_string. rewrite !F0 by (cbn; intuition discriminate). exact HM. }
  assert (V0 : venv_path resolve exists_ c0 = Ok venv). { unfold venv_path. rewrite !F0 by (cbn; intuition discriminate). exact HE. }
  assert (P : exists c', prepare show_list resolve exists_ slurm w f c0 = Ok c').
  { apply (prepare_total show_list resolve exists_ slurm w f c0 mods venv nodes pernode M0 V0); rewrite F0; auto; cbn; intuition discriminate. }
  destruct P as [c' P]. exists c'. destruct (prepare_ok _ _ _ _ _ _ _ _ P) as (m & v & n & pn & mp & _ & _ & _ & _ & _ & G1 & G2 & _ & G4 & G5 & G6 & G7 & G8 & G9 & G10 & (a & G11 & _) & G12 & G13).
  assert (O : forall k, ~ In k computed -> ~ In k (map s_ ["profile"; "profiler"; "psutil"]%string) -> dget k c' = dget k c) by (intros; rewrite G13, F0; auto).
  assert (OK : forall fl, In fl (match fields None slurm_script with Some l => l | None => [] end) -> exists t, field_value show_list (fun n => dget n c') fl = Ok t).
  { assert (SF : forall fl nm v0 t, simple fl = Some (nm, s_ "s") -> dget nm c' = Some v0 -> v0 = VStr t -> exists t, field_value show_list (fun n => dget n c') fl = Ok t).
    { intros fl nm v0 t E G ->. exists t. rewrite (simple_value _ _ _ _ _ E), G. reflexivity. }
    assert (DF : forall fl nm z, simple fl = Some (nm, s_ "d") -> dget nm c' = Some (VInt z) -> exists t, field_value show_list (fun n => dget n c') fl = Ok t).
    { intros fl nm z E G. eexists. rewrite (simple_value _ _ _ _ _ E), G. reflexivity. }
    destruct FP as (pa & pb & pd & FP1 & FP2 & FP3). rewrite <- G13 in FP1, FP2, FP3 by (cbn; intuition discriminate).
    assert (GT : exists t, dget (s_ "time") c' = Some (VStr t)). { rewrite G12, F0 by (cbn; intuition discriminate). destruct (dget (s_ "time") c) as [t|]; [|congruence]. cbn [option_map]. eauto. }
    assert (GI : exists t, dget (s_ "invoke") c' = Some (VStr t)). { rewrite G10, F0 by (cbn; intuition discriminate). destruct (dget (s_ "invoke") c) as [i|]; [destruct (HV i eq_refl) as [s ->]|]; eauto. }
    assert (HS' : forall k, In k (map s_ ["name"; "mem"; "account"]%string) -> exists s, dget k c' = Some (VStr s)).
    { intros k I. destruct (HS k I) as [s E]. exists s. rewrite O; [exact E| |]; cbn in I; destruct I as [<-|[<-|[<-|[]]]]; cbn; intuition discriminate. }
    assert (HI' : forall k, In k (map s_ ["nodes"; "pernode"; "ompnum"]%string) -> exists s, dget k c' = Some (VInt s)).
    { intros k I. destruct (HI k I) as [s E]. exists s. rewrite O; [exact E| |]; cbn in I; destruct I as [<-|[<-|[<-|[]]]]; cbn; intuition discriminate. }
    destruct GT as [gt GT]. destruct GI as [gi GI].
    destruct (HS' (s_ "name")) as [s1 E1]; [cbn; tauto|]. destruct (HS' (s_ "mem")) as [s2 E2]; [cbn; tauto|]. destruct (HS' (s_ "account")) as [s3 E3]; [cbn; tauto|].
    destruct (HI' (s_ "nodes")) as [z1 Z1]; [cbn; tauto|]. destruct (HI' (s_ "pernode")) as [z2 Z2]; [cbn; tauto|]. destruct (HI' (s_ "ompnum")) as [z3 Z3]; [cbn; tauto|].
    assert (Fs : fields None slurm_script = Some (map s_ ["account:s"; "nodes:d"; "pernode:d"; "ompnum:d"; "mem:s"; "time:s"; "name:s"; "statuspath:s"; "statuspath:s"; "modules:s"; "venv:s"; "workdir:s";
      "invoke:s"; "invoke_args:s"; "profile:s"; "profiler:s"; "psutil:s"; "configpath:s"; "logpath:s"; "statuspath:s"; "usetemp:d"; "finaldir:s"; "workdir:s"; "finaldir:s"]%string)) by (vm_compute; reflexivity).
    rewrite Fs. clear Fs P. intros fl I. cbn [map In] in I.
    repeat (destruct I as [<-|I]; [first [eapply SF; [reflexivity|eassumption|reflexivity] | eapply DF; [reflexivity|eassumption]]|]). destruct I. }
  destruct (fields None slurm_script) as [l|] eqn:Fl; [|vm_compute in Fl; discriminate Fl].
  destruct (proj2 (fmt_fields show_list (fun n => dget n c') slurm_script None l Fl) OK) as [text T].
  exists text. split; [exact P|]. split; [|now apply fmt_iff]. unfold resolve_job_script. fold c0. rewrite P. cbn [rbind]. exact T.
Qed.
Print Assumptions C108_slurm_partial.
(** The values used: processes, directories, files, whether to move the results;
    everything else is as configured. *)
Theorem C108_values : forall show_list resolve exists_ y w f c c', prepare show_list resolve exists_ y w f c = Ok c' ->
  (forall n p, dget (s_ "nodes") c = Some (VInt n) -> dget (s_ "pernode") c = Some (VInt p) -> dget (s_ "mpiproc") c' = Some (VInt (n * p))) /\
  dget (s_ "workdir") c' = Some (VStr w) /\ dget (s_ "finaldir") c' = Some (VStr f) /\
  dget (s_ "statuspath") c' = Some (VStr (w ++ s_ "/job/STATUS")) /\ dget (s_ "configpath") c' = Some (VStr (w ++ s_ "/job/config.yaml")) /\ dget (s_ "logpath") c' = Some (VStr (w ++ s_ "/job/jobout.log")) /\
  (dget (s_ "usetemp") c' = Some (VInt 1) <-> f <> w) /\
  (forall v, dget (s_ "invoke") c = Some v -> dget (s_ "invoke") c' = Some v) /\
  (forall i, dget (s_ "invoke") c = None -> y_invoke y = Some i -> dget (s_ "invoke") c' = Some (VStr i)) /\
  (dget (s_ "invoke") c = None -> y_invoke y = None -> dget (s_ "invoke") c' = Some (VStr (s_ "mpirun"))) /\
  (forall t, dget (s_ "time") c = Some t -> dget (s_ "time") c' = Some (VStr (show_val show_list t))) /\
  forall k, ~ In k (map s_ ["modules"; "venv"; "mpiproc"; "workdir"; "finaldir"; "logpath"; "configpath"; "statuspath"; "usetemp"; "invoke"; "invoke_args"; "time"]%string) -> dget k c' = dget k c.
Proof.
  intros show_list resolve exists_ y w f c c' H.
  destruct (prepare_ok _ _ _ _ _ _ _ _ H) as (m & v & n & pn & mp & _ & _ & N & P & T & _ & _ & G3 & G4 & G5 & G6 & G7 & G8 & G9 & G10 & _ & G12 & G13).
  split; [intros n' p' En Ep; rewrite N in En; rewrite P in Ep; injection En as ->; injection Ep as ->; cbn in T; injection T as <-; exact G3|].
  do 5 (split; [assumption|]). split; [rewrite G9; destruct (str_eq_dec f w); split; intros; congruence|].
  split; [intros i Ei; rewrite G10, Ei; reflexivity|]. split; [intros i Ei Ey; rewrite G10, Ei, Ey; reflexivity|]. split; [intros Ei Ey; rewrite G10, Ei, Ey; reflexivity|].
  split; [intros t Et; rewrite G12, Et; reflexivity|exact G13].
Qed.
Print Assumptions C108_values.
Lemma script_needs : forall show_list resolve exists_ y s w f c text l fl k spec, y_script y = Some s -> resolve_job_script show_list resolve exists_ y w f c = Ok text ->
  fields None s = Some l -> In fl l -> simple fl = Some (k, spec) -> ~ In k computed -> dget k c <> None.
Proof.
  intros show_list resolve exists_ y s w f c text l fl k spec Hy H Fl I Sm Nk Hm. unfold resolve_job_script in H.
  destruct (prepare show_list resolve exists_ y w f c) as [c'|] eqn:P; [|discriminate]. cbn [rbind] in H. rewrite Hy in H. unfold format in H.
  destruct (prepare_ok _ _ _ _ _ _ _ _ P) as (m & v & n & pn & mp & _ & _ & _ & _ & _ & _ & _ & _ & _ & _ & _ & _ & _ & _ & _ & _ & _ & G13).
  assert (M : dget k c' = None) by (rewrite G13; [exact Hm|exact Nk]).
  destruct (proj1 (fmt_fields show_list (fun n => dget n c') s None l Fl) (ex_intro _ text H) fl I) as [t T].
  rewrite (simple_value _ _ fl k spec Sm), M in T. discriminate.
Qed.
(** PBS: no configuration gives a script, unless it has an undocumented key
    [module]. *)
Theorem C108_pbs_refuted : exists y, dget (s_ "pbs") default_systems = Some y /\
  forall show_list resolve exists_ w f c text, dget (s_ "module") c = None -> resolve_job_script show_list resolve exists_ y w f c <> Ok text.
Proof.
  exists pbs. split; [reflexivity|]. intros show_list resolve exists_ w f c text Hm H.
  assert (X : exists l, fields None pbs_script = Some l /\ In (s_ "module:s") l) by (eexists; split; [vm_compute; reflexivity|cbn; tauto]).
  destruct X as (l & Fl & I). refine (script_needs show_list resolve exists_ pbs pbs_script w f c text l (s_ "module:s") (s_ "module") (s_ "s") eq_refl H Fl I eq_refl _ Hm).
  cbn. intuition discriminate.
Qed.
Print Assumptions C108_pbs_refuted.
(** The required keys of PBS are not all that are needed. *)
Theorem C108_required_refuted : exists c c', resolve_system_config default_systems (Some c) = Ok c' /\
  forall show_list resolve exists_ w f, resolve_job_script show_list resolve exists_ pbs w f c' = Err KeyError.
Proof.
  exists [(s_ "system", VStr (s_ "pbs")); (s_ "name", VStr (s_ "j")); (s_ "nodes", VInt 2); (s_ "time", VStr (s_ "1:00:00")); (s_ "directory", VStr (s_ "/o")); (s_ "ppn", VInt 8); (s_ "queue", VStr (s_ "batch"))].
  eexists. split; [reflexivity|]. reflexivity.
Qed.
Print Assumptions C108_required_refuted.
(** A number as memory (as for all the memory of a node) is rejected. *)
Definition slurm_conf (mem : val) : list (str * val) :=
  forward true (s_ "cprofile") false [(s_ "system", VStr (s_ "slurm")); (s_ "name", VStr (s_ "j")); (s_ "nodes", VInt 2); (s_ "time", VInt 60); (s_ "mem", mem); (s_ "directory", VStr (s_ "/o")); (s_ "ompnum", VInt 8);
    (s_ "pernode", VInt 4); (s_ "account", VStr (s_ "acc"))].
Theorem C108_memory_refuted : exists c, resolve_system_config default_systems (Some c) = Ok c /\
  resolve_job_script (fun _ => []) (fun p => p) (fun _ => true) slurm (s_ "/o") (s_ "/o") c = Err ValueError.
Proof. exists (slurm_conf (VInt 0)). split; vm_compute; reflexivity. Qed.
Print Assumptions C108_memory_refuted.
(** The arguments a system has for its launcher are not used. *)
Theorem C108_arguments_refuted : exists y c c', y_invoke_args y = Some (s_ "-np {mpiproc:d} -npernode {pernode:d} -bind-to none") /\
  prepare (fun _ => []) (fun p => p) (fun _ => true) y (s_ "/o") (s_ "/o") c = Ok c' /\ dget (s_ "invoke") c' = Some (VStr (s_ "mpirun")) /\ dget (s_ "invoke_args") c' = Some (VStr []).
Proof. exists pbs, (slurm_conf (VInt 0)). eexists. split; [reflexivity|]. split; [vm_compute; reflexivity|]. split; reflexivity. Qed.
Print Assumptions C108_arguments_refuted.
Example C108_example : exists text, resolve_job_script (fun _ => []) (fun p => p) (fun _ => true) slurm (s_ "/t") (s_ "/o")
    (slurm_conf (VStr (s_ "4G")) ++ [(s_ "invoke_args", VStr (s_ "-n {mpiproc}")); (s_ "venv", VStr (s_ "/v")); (s_ "module_list", VList [s_ "a"; s_ "b"])]) = Ok text /\
  firstn 8 (split nl text) = map s_ ["#!/bin/bash"; "#SBATCH --account=acc"; "#SBATCH --nodes=2"; "#SBATCH --ntasks-per-node=4 # number of MPI processes"; "#SBATCH --cpus-per-task=8 # number of OpenMP processes";
    "#SBATCH --mem=4G # memory per node"; "#SBATCH --time=60"; "#SBATCH --job-name=j"]%string /\
  Inside (s_ "srun -n 8 caput-pipeline run --profile --profiler=cprofile  /t/job/config.yaml &> /t/job/jobout.log") text /\ Inside (s_ "if [ 1 -eq 1 ]") text.
Proof.
  eexists. split; [vm_compute; reflexivity|]. split; [vm_compute; reflexivity|]. split; apply infix_iff; vm_compute; reflexivity.
Qed.

(** * C109 *)
(** One line per module path and module, after a purge, and empty lines. *)
Definition words (l : list str) : Prop := forall x, In x l -> x <> [] /\ ~ In nl x.
Lemma join_s_lines : forall cmd l, l <> [] -> cmd ++ join_s (nl :: cmd) l = join nl (map (app cmd) l).
Proof.
  intros cmd l N. destruct l as [|x l]; [contradiction|]. clear N. cbn [join_s]. revert x. induction l as [|y l IH]; intros x.
  - cbn [flat_map map join]. now rewrite app_nil_r.
  - specialize (IH y). cbn [flat_map map]. cbn [map] in IH. change (join nl ((cmd ++ x) :: (cmd ++ y) :: map (app cmd) l)) with ((cmd ++ x) ++ nl :: join nl ((cmd ++ y) :: map (app cmd) l)).
    rewrite <- IH. cbn [app]. now rewrite <- !app_assoc.
Qed.
Lemma split_cat : forall c a b, split c (a ++ c :: b) = split c a ++ split c b.
Proof.
  intros c a b. induction a as [|x a IH].
  - cbn [app split]. replace (ceqb c c) with true by (symmetry; apply ceqb_eq; reflexivity). reflexivity.
  - cbn [app split]. rewrite IH. destruct (ceqb x c); [reflexivity|]. pose proof (split_nonempty c a). destruct (split c a); [contradiction|reflexivity].
Qed.
Theorem C109_modules : forall c paths mods s, modules_of (dget (s_ "module_path") c) = Ok paths -> modules_of (dget (s_ "module_list") c) = Ok mods -> words paths -> words mods ->
  module_string c = Ok s ->
  (paths = [] -> mods = [] -> s = []) /\
  (paths <> [] \/ mods <> [] -> filter (fun l => match l with [] => false | _ => true end) (split nl s) =
     s_ "module --force purge" :: map (fun p => s_ "module use " ++ p) paths ++ map (fun m => s_ "module load " ++ m) mods).
Proof.
  intros c paths mods s Hp Hm Wp Wm H. unfold module_string in H. rewrite Hp, Hm in H. cbn [rbind] in H.
  assert (SP : forall cmd l, ~ In nl cmd -> cmd <> [] -> words l -> l <> [] -> filter (fun l => match l with [] => false | _ => true end) (split nl (cmd ++ join_s (nl :: cmd) l)) = map (app cmd) l).
  { intros cmd l Nc Ne W N. rewrite join_s_lines by exact N. rewrite split_join.
    - clear N. induction l as [|x l IH]; [reflexivity|]. cbn [map filter]. rewrite IH by (intros z I; apply W; now right). destruct cmd; [contradiction|reflexivity].
    - destruct l; [contradiction|discriminate].
    - intros z I J. apply in_map_iff in I as (x & <- & I). apply in_app_or in J as [J|J]; [contradiction|]. exact (proj2 (W x I) J). }
  assert (SA : forall a b, filter (fun l : str => match l with [] => false | _ => true end) (split nl (a ++ nl :: b)) =
    filter (fun l : str => match l with [] => false | _ => true end) (split nl a) ++ filter (fun l : str => match l with [] => false | _ => true end) (split nl b)).
  { intros a b. rewrite split_cat. apply filter_app. }
  assert (Np : ~ In nl (s_ "module use ")) by (intros I; vm_compute in I; intuition discriminate). assert (Nm : ~ In nl (s_ "module load ")) by (intros I; vm_compute in I; intuition discriminate).
  split; [intros -> ->; now injection H as <-|]. intros D.
  destruct paths as [|p paths], mods as [|m mods].
  - destruct D as [D|D]; now elim D.
  - assert (H' : s = s_ "module --force purge" ++ nl :: ([] ++ nl :: (s_ "module load " ++ join_s (nl :: s_ "module load ") (m :: mods)))) by (injection H as <-; reflexivity).
    rewrite H', !SA, SP by (auto; discriminate). reflexivity.
  - assert (H' : s = s_ "module --force purge" ++ nl :: (s_ "module use " ++ join_s (nl :: s_ "module use ") (p :: paths))) by (injection H as <-; reflexivity).
    rewrite H', SA, SP by (auto; discriminate). cbn [map]. rewrite app_nil_r. reflexivity.
  - assert (H' : s = s_ "module --force purge" ++ nl :: ((s_ "module use " ++ join_s (nl :: s_ "module use ") (p :: paths)) ++ nl :: (s_ "module load " ++ join_s (nl :: s_ "module load ") (m :: mods)))).
    { injection H as <-. reflexivity. }
    rewrite H', !SA, !SP by (auto; discriminate). reflexivity.
Qed.
Print Assumptions C109_modules.
(** A module or a list of modules may be given. *)
Theorem C109_options : forall v l, modules_of v = Ok l -> (forall s, v = Some (VStr s) -> s <> [] -> l = [s]) /\ (forall m, v = Some (VList m) -> l = m) /\ (v = None -> l = []).
Proof.
  intros v l H. repeat split.
  - intros s -> N. destruct s; [contradiction|]. now injection H as <-.
  - intros m ->. now injection H as <-.
  - intros ->. now injection H as <-.
Qed.
Print Assumptions C109_options.
(** The environment is the one configured, if it is there; or none. *)
Theorem C109_venv : forall resolve exists_ c p, venv_path resolve exists_ c = Ok p ->
  (dget (s_ "venv") c = None /\ p = s_ "/dev/null") \/ (exists v, dget (s_ "venv") c = Some (VStr v) /\ p = resolve (v ++ s_ "/bin/activate") /\ exists_ p = true).
Proof.
  intros resolve exists_ c p H. unfold venv_path in H. destruct (dget (s_ "venv") c) as [[v| | | |]|]; try discriminate; [right|left; split; [reflexivity|now injection H as <-]].
  destruct (exists_ (resolve (v ++ s_ "/bin/activate"))) eqn:E; [|discriminate]. injection H as <-. eauto.
Qed.
Print Assumptions C109_venv.
(** An environment set to nothing is a type error. *)
Theorem C109_null_refuted : exists c, forall resolve exists_, venv_path resolve exists_ c = Err TypeError /\ module_string [(s_ "module_list", VNone)] = Ok [].
Proof. exists [(s_ "venv", VNone)]. split; reflexivity. Qed.
Print Assumptions C109_null_refuted.
Example C109_example : exists s, module_string [(s_ "module_list", VStr (s_ "gcc")); (s_ "module_path", VList [s_ "/a"; s_ "/b"])] = Ok s /\
  split nl s = map s_ ["module --force purge"; "module use /a"; "module use /b"; "module load gcc"]%string.
Proof. eexists. split; reflexivity. Qed.

(** * C110 *)
(** The packages of the environment come first; nothing is lost or reordered
    otherwise. *)
Theorem C110_first : forall prev path,
  load_venv prev path = filter (fun x => if in_dec str_eq_dec x prev then false else true) path ++ filter (fun x => if in_dec str_eq_dec x prev then true else false) path.
Proof.
  intros prev path. unfold load_venv. rewrite move_new_ok by reflexivity. cbn [app].
  assert (E : forall x, existsb (seqb x) prev = if in_dec str_eq_dec x prev then true else false).
  { intros x. destruct (in_dec str_eq_dec x prev) as [I|N].
    - apply existsb_exists. exists x. split; [exact I|apply seqb_refl].
    - apply not_true_iff_false. intros K. apply existsb_exists in K as (y & J & K). apply seqb_eq in K. now subst. }
  f_equal; apply filter_ext; intros x; rewrite E; now destruct (in_dec str_eq_dec x prev).
Qed.
Print Assumptions C110_first.
(** So new directories which are added at the end come first. *)
Theorem C110_added : forall prev new, (forall x, In x new -> ~ In x prev) -> load_venv prev (prev ++ new) = new ++ prev.
Proof.
  intros prev new H. rewrite C110_first, !filter_app.
  assert (A : forall l : list str, (forall x, In x l -> In x prev) -> filter (fun x => if in_dec str_eq_dec x prev then false else true) l = [] /\ filter (fun x => if in_dec str_eq_dec x prev then true else false) l = l).
  { induction l as [|x l IH]; intros I; [auto|]. cbn [filter]. destruct (in_dec str_eq_dec x prev) as [_|N]; [|elim N; apply I; now left]. destruct IH as [-> ->]; [intros; apply I; now right|auto]. }
  assert (B : forall l : list str, (forall x, In x l -> ~ In x prev) -> filter (fun x => if in_dec str_eq_dec x prev then false else true) l = l /\ filter (fun x => if in_dec str_eq_dec x prev then true else false) l = []).
  { induction l as [|x l IH]; intros I; [auto|]. cbn [filter]. destruct (in_dec str_eq_dec x prev) as [K|_]; [elim (I x (or_introl eq_refl) K)|]. destruct IH as [-> ->]; [intros; apply I; now right|auto]. }
  destruct (A prev (fun x I => I)) as [-> ->]. destruct (B new H) as [-> ->]. now rewrite app_nil_r.
Qed.
Print Assumptions C110_added.
(** The directory of the packages: right for versions 3.0 to 3.9 only, none of
    which is supported. *)
Theorem C110_directory_partial : forall base minor rest, is_digit minor = true ->
  site_packages base (s_ "3." ++ minor :: rest) = base ++ s_ "/lib/python3." ++ minor :: s_ "/site-packages".
Proof. reflexivity. Qed.
Print Assumptions C110_directory_partial.
Theorem C110_directory_refuted : exists version, version = s_ "3.12.4 (main)" /\ forall base, site_packages base version = base ++ s_ "/lib/python3.1/site-packages".
Proof. eexists. split; reflexivity. Qed.
Print Assumptions C110_directory_refuted.
Example C110_example : load_venv (map s_ ["a"; "b"]%string) (map s_ ["a"; "n"; "b"; "m"; "n"]%string) = map s_ ["n"; "m"; "n"; "a"; "b"]%string.
Proof. reflexivity. Qed.
