(** C379: [list_of_filelists] with lists among its arguments. *)
From Coq Require Import String.
From Coq Require Import List Ascii Bool Arith Permutation Sorted Lia.
From Verif Require Import PyBase PyStr MemModel AttrModel GlobModel GlobSpec GlobProofs GlobProps Glob2Spec.
Import ListNotations.
Open Scope list_scope.
Open Scope nat_scope.

Section Files.
Variables (isfile isdir : str -> bool) (glob : str -> list str).
Hypothesis sane : Sane isfile isdir glob.
Lemma replace_all_total l : exists enough, forall fuel, enough <= fuel ->
  (exists names, Forall2 (Names isfile isdir glob) l names /\
     replace_all isfile isdir glob fuel l = Some (Ok (map (fun n => FList (map FStr n)) names))) \/
  ((forall names, ~ Forall2 (Names isfile isdir glob) l names) /\ replace_all isfile isdir glob fuel l = Some (Err CaputConfigError)).
Proof.
  induction l as [|x l IH].
  - exists 0. intros fuel _. left. exists []. split; [constructor|reflexivity].
  - destruct IH as [e1 IH]. destruct (C65_flatten_partial isfile isdir glob x sane) as [e2 X]. exists (e1 + e2). intros fuel F.
    cbn [replace_all]. destruct (X fuel) as [(n & N & ->)|[N ->]]; [lia| |].
    + destruct (IH fuel) as [(names & A & ->)|[A ->]]; [lia| |].
      * left. exists (n :: names). split; [constructor; assumption|reflexivity].
      * right. split; [|reflexivity]. intros names B. inversion B. subst. eapply A. eassumption.
    + right. split; [|reflexivity]. intros names B. inversion B. subst. eapply N. eassumption.
Qed.
Lemma filelists_total args : exists enough, forall fuel, enough <= fuel ->
  (exists r, Lists isfile isdir glob args r /\ list_of_filelists isfile isdir glob fuel args = Some (Ok r)) \/
  ((forall r, ~ Lists isfile isdir glob args r) /\ list_of_filelists isfile isdir glob fuel args = Some (Err CaputConfigError)).
Proof.
  induction args as [|a args IH].
  - exists 0. intros fuel _. left. exists []. split; [constructor|reflexivity].
  - destruct IH as [e1 IH]. destruct a as [s|l|].
    + exists e1. intros fuel F. cbn [list_of_filelists]. destruct (missing isfile s) eqn:M.
      * right. split; [|reflexivity]. intros r R. apply missing_iff in M. inversion R as [|? ? ? D|]. subst. destruct D; [tauto|]. destruct M. congruence.
      * assert (D : In (ch "*") s \/ isfile s = true).
        { unfold missing in M. apply andb_false_iff in M. rewrite !negb_false_iff, has_char_in in M. exact M. }
        destruct (IH fuel F) as [(r & R & ->)|[R ->]].
        -- left. eexists. split; [constructor; eassumption|reflexivity].
        -- right. split; [|reflexivity]. intros r Q. inversion Q. subst. eapply R. eassumption.
    + destruct (replace_all_total l) as [e2 X]. exists (e1 + e2). intros fuel F. cbn [list_of_filelists].
      destruct (X fuel) as [(n & N & ->)|[N ->]]; [lia| |].
      * destruct (IH fuel) as [(r & R & ->)|[R ->]]; [lia| |].
        -- left. eexists. split; [constructor; eassumption|reflexivity].
        -- right. split; [|reflexivity]. intros r Q. inversion Q. subst. eapply R. eassumption.
      * right. split; [|reflexivity]. intros r Q. inversion Q. subst. eapply N. eassumption.
    + exists 0. intros fuel _. right. split; [|reflexivity]. intros r Q. inversion Q.
Qed.
End Files.

(** * C379 *)
Theorem C379_lists : forall isfile isdir glob args, Sane isfile isdir glob ->
  exists enough, forall fuel, enough <= fuel ->
    (exists r, Lists isfile isdir glob args r /\ list_of_filelists isfile isdir glob fuel args = Some (Ok r)) \/
    ((forall r, ~ Lists isfile isdir glob args r) /\ list_of_filelists isfile isdir glob fuel args = Some (Err CaputConfigError)).
Proof. intros isfile isdir glob args H. apply filelists_total. exact H. Qed.
Print Assumptions C379_lists.
Example C379_example : 
  list_of_filelists (is_name d1) (fun _ => false) (dir_glob d1) 9 [FStr (s_ "b*"); FList [FStr (s_ "b*"); FStr (s_ "c.txt")]] =
    Some (Ok [FStr (s_ "b2.h5"); FStr (s_ "b1.h5"); FList [FStr (s_ "b1.h5"); FStr (s_ "b2.h5")]; FList [FStr (s_ "c.txt")]]) /\
  list_of_filelists (is_name d1) (fun _ => false) (dir_glob d1) 9 [FStr (s_ "b*"); FOther] = Some (Err CaputConfigError) /\
  Sane (is_name d1) (fun _ => false) (dir_glob d1).
Proof. split; [vm_compute; reflexivity|]. split; [vm_compute; reflexivity|]. apply dir_sane. apply C65_example. Qed.
