(** C68, the settings of the run. *)
From Coq Require Import String.
From Coq Require Import List Ascii Bool Arith ZArith Lia.
From Verif Require Import PyBase PyStr MemModel RunModel RunSpec RunProofs.
Import ListNotations.
Open Scope list_scope.
Open Scope nat_scope.

(** A call fits if its positional arguments are not too many and its keywords
    are exactly the names left over. *)
Theorem C68_call : forall params npos kws,
  bind params npos kws = Ok tt
  <-> npos <= length params /\ forall k, In k kws <-> In k (skipn npos params).
Proof.
  intros params npos kws. unfold bind.
  assert (E : forall l m, forallb (fun k => existsb (seqb k) l) m = true <-> forall k, In k m -> In k l).
  { intros l m. rewrite forallb_forall. split; intros H k Hk; specialize (H k Hk).
    - apply existsb_exists in H as (x & Hx & Ex). apply seqb_eq in Ex. now subst.
    - apply existsb_exists. exists k. split; auto. apply seqb_refl. }
  destruct ((npos <=? length params) && _ && _) eqn:C.
  - split; auto. intros _. apply andb_prop in C as [C C3]. apply andb_prop in C as [C1 C2].
    apply Nat.leb_le in C1. split; auto. intros k. split.
    + now apply E.
    + now apply E.
  - split; [discriminate|]. intros [H1 H2]. exfalso. apply Nat.leb_le in H1. rewrite H1 in C.
    assert (C2 : forallb (fun k => existsb (seqb k) (skipn npos params)) kws = true) by (apply E; intros k; apply H2).
    assert (C3 : forallb (fun p => existsb (seqb p) kws) (skipn npos params) = true) by (apply E; intros k; apply H2).
    rewrite C2, C3 in C. discriminate.
Qed.
Print Assumptions C68_call.

(** With settings that do not fit nothing is run. *)
Theorem C68_settings : forall show_list run template var nargs kws,
  ~ (S nargs <= 5 /\ forall k, In k kws <-> In k (skipn (S nargs) run_pipeline_params)) ->
  fst (template_run show_list run template var nargs kws) = [].
Proof.
  intros show_list run template var nargs kws H. unfold template_run.
  destruct (bind run_pipeline_params (S nargs) kws) as [[]|e] eqn:E.
  - exfalso. apply H. apply C68_call in E. exact E.
  - destruct (from_template _ _ _ _). reflexivity.
Qed.
Print Assumptions C68_settings.

Example C68_settings_example :
  bind run_pipeline_params 6 [] = Err TypeError
  /\ bind run_pipeline_params 3 (map s_ ["psutil"; "mpi_abort"]%string) = Ok tt
  /\ bind run_pipeline_params 3 (map s_ ["psutil"]%string) = Err TypeError.
Proof. repeat split. Qed.
