(** Queueing the jobs of a template: theorems.  Model: TqModel.v; specification: RunSpec.v. *)
From Coq Require Import String.
From Coq Require Import List Ascii Bool Arith ZArith Lia.
From Verif Require Import PyBase PyStr MemModel MemProofs2 AttrProofs CopyProofs ContProofs GlobModel RunModel RunSpec RunProofs RunProps TqModel.
Import ListNotations.
Open Scope list_scope.
Open Scope nat_scope.

(** The job of a combination of values: its text is the template with the values filled in. *)
Definition Job (show_list : list str -> str) (read : str -> res (job * res unit)) (template : str) (names : list str)
    (vs : list str) (j : job) : Prop :=
  exists t, Formats show_list (fun n => dget n (combine names (map VStr vs))) template t /\ read t = Ok (j, Ok tt).

Lemma queue_new : forall fs j o, dget (workdir j) fs = None ->
  queue fs j o (Ok tt) (Ok tt) true = (dput (workdir j) None fs, true, Ok tt).
Proof. intros fs j o H. unfold queue, create_job_directories. rewrite H. reflexivity. Qed.
Lemma combos_all : forall show_list read template names o combos js fs,
  Forall2 (Job show_list read template names) combos js ->
  NoDup (map workdir js) -> (forall j, In j js -> dget (workdir j) fs = None) ->
  exists fs', queue_combos show_list read (Ok tt) fs template names o combos = (fs', map workdir js, Ok tt) /\
    (forall w, dget w fs' <> None <-> dget w fs <> None \/ In w (map workdir js)).
Proof.
  intros show_list read template names o combos. induction combos as [|vs combos IH]; intros js fs F N D.
  - inversion F; subst. exists fs. split; [reflexivity|]. intros w. simpl. tauto.
  - inversion F as [|? j ? js' [t [T R]] F']; subst. simpl in N. inversion N as [|? ? NI N']; subst.
    cbn [queue_combos]. apply C68_format in T. rewrite T, R, queue_new by (apply D; left; reflexivity).
    destruct (IH js' (dput (workdir j) None fs) F' N') as [fs' [E K]].
    { intros j' J. rewrite dget_dput_other; [apply D; right; exact J|].
      intros X. apply NI. rewrite <- X. apply in_map. exact J. }
    rewrite E. exists fs'. split; [reflexivity|]. intros w. rewrite K. simpl.
    destruct (str_eq_dec w (workdir j)) as [->|NE].
    + rewrite dget_dput_same. split; [intros _; right; left; reflexivity|intros _; left; discriminate].
    + rewrite dget_dput_other by exact NE. split; intros [A|A]; auto.
      destruct A as [A|A]; [congruence|auto].
Qed.
(** C322: if the combinations of the values give jobs in directories that differ and are new, every job is submitted,
    each once, in the order of the combinations, whatever is asked about existing jobs. *)
Theorem C322_each : forall show_list read fs template d overwrite js,
  NoDup (map fst d) -> (forall n vals, In (n, vals) d -> ~ In "="%char n /\ vals <> [] /\ forall v, In v vals -> ~ In ","%char v) ->
  Forall2 (Job show_list read template (map fst d)) (product (map snd d)) js ->
  NoDup (map workdir js) -> (forall j, In j js -> dget (workdir j) fs = None) ->
  exists fs', template_queue show_list read (Ok tt) fs template (map (fun nv => fst nv ++ "="%char :: join ","%char (snd nv)) d) overwrite
    = (fs', map workdir js, Ok tt) /\ (forall w, dget w fs' <> None <-> dget w fs <> None \/ In w (map workdir js)).
Proof.
  intros show_list read fs template d o js N H F ND D. unfold template_queue.
  change (map (fun nv => fst nv ++ "="%char :: join ","%char (snd nv)) d) with (map render d).
  rewrite vardict_render; [|exact N|exact H]. apply combos_all; assumption.
Qed.
Print Assumptions C322_each.
(** The combinations are all of them. *)
Theorem C322_combinations : forall (d : list (str * list str)) vs,
  In vs (product (map snd d)) <-> Forall2 (fun v nv => In v (snd nv)) vs d.
Proof.
  intros d vs. rewrite product_in. revert vs. induction d as [|nv d IH]; intros vs; cbn [map].
  - split; intros F; inversion F; constructor.
  - split; intros F; inversion F as [|v l vs' l' I F']; subst; constructor; auto; now apply IH.
Qed.
Print Assumptions C322_combinations.
(** Whatever the jobs are: with "never" no directory is submitted that was there, and none twice; *)
Theorem C322_never : forall show_list read mail template names combos fs fs' l r,
  queue_combos show_list read mail fs template names (s_ "never") combos = (fs', l, r) ->
  NoDup l /\ (forall w, In w l -> dget w fs = None) /\ (forall w, dget w fs <> None -> dget w fs' <> None) /\ (forall w, In w l -> dget w fs' <> None).
Proof.
  intros show_list read mail template names combos. induction combos as [|vs combos IH]; intros fs fs' l r H; cbn [queue_combos] in H.
  - inversion H; subst. split; [constructor|]. split; [intros w []|]. split; [auto|intros w []].
  - destruct (format show_list template _) as [t|e]; [|inversion H; subst; split; [constructor|]; split; [intros w []|]; split; [auto|intros w []]].
    destruct (read t) as [[j sc]|e]; [|inversion H; subst; split; [constructor|]; split; [intros w []|]; split; [auto|intros w []]].
    destruct (queue fs j (s_ "never") sc mail true) as [[fs1 sub] q] eqn:Q.
    destruct (queue_cases _ _ _ _ _ _ _ _ _ Q) as (A & B & C & E).
    assert (G : sub = true -> dget (workdir j) fs = None).
    { intros S. destruct (dget (workdir j) fs) eqn:G; [|reflexivity]. exfalso. destruct (E S) as (_ & _ & Y).
      apply (proj1 (Y ltac:(congruence))). reflexivity. }
    destruct q as [u|e].
    + destruct (queue_combos show_list read mail fs1 template names (s_ "never") combos) as [[fs2 l2] r2] eqn:R.
      destruct (IH _ _ _ _ R) as (N & D & K & M). inversion H; subst.
      assert (D' : forall w, In w l2 -> dget w fs = None).
      { intros w I. destruct (dget w fs) eqn:X; [|reflexivity]. exfalso.
        assert (Y : dget w fs1 <> None) by (rewrite C by congruence; congruence). apply Y. apply D. exact I. }
      assert (K' : forall w, dget w fs <> None -> dget w fs' <> None) by (intros w X; apply K; rewrite C by exact X; exact X).
      destruct sub; [|auto]. split; [|split; [|split; [exact K'|]]].
      * constructor; [|exact N]. intros I. specialize (D _ I). contradiction.
      * intros w [<-|I]; auto.
      * intros w [<-|I]; [apply K; exact B|auto].
    + inversion H; subst. destruct sub.
      * split; [constructor; [intros []|constructor]|]. split; [intros w [<-|[]]; auto|]. split; [|intros w [<-|[]]; exact B].
        intros w X. rewrite C; exact X.
      * split; [constructor|]. split; [intros w []|]. split; [|intros w []]. intros w X. rewrite C; exact X.
Qed.
Print Assumptions C322_never.
(** so combinations in a common directory share one job, the first's: the others are left out without an error. *)
Theorem C322_shared : forall show_list read template names vs combos fs j, Job show_list read template names vs j ->
  dget (workdir j) fs <> None ->
  queue_combos show_list read (Ok tt) fs template names (s_ "never") (vs :: combos)
  = queue_combos show_list read (Ok tt) fs template names (s_ "never") combos.
Proof.
  intros show_list read template names vs combos fs j [t [T R]] G. cbn [queue_combos]. apply C68_format in T. rewrite T, R.
  unfold queue, create_job_directories. destruct (dget (workdir j) fs) as [st|]; [|contradiction].
  rewrite seqb_refl. destruct (queue_combos _ _ _ _ _ _ _ _) as [[a b] c]. reflexivity.
Qed.
Print Assumptions C322_shared.

Definition ex_read (t : str) : res (job * res unit) := Ok (mkjob t None, Ok tt).
Definition ex_show (l : list str) : str := [].
(** Two variables with two values and one: two jobs; the third directory was there before. *)
Example C322_ex : snd (fst (template_queue ex_show ex_read (Ok tt) [(s_ "/old", None)] (s_ "/{a}/{b}") [s_ "a=x,y"; s_ "b=1"] (s_ "never")))
    = [s_ "/x/1"; s_ "/y/1"] /\
  snd (fst (template_queue ex_show ex_read (Ok tt) [(s_ "/old", None)] (s_ "/{a}") [s_ "a=x,old"; s_ "b=1,2"] (s_ "never"))) = [s_ "/x"].
Proof. split; vm_compute; reflexivity. Qed.
