(** C65, C66, C94: file lists. *)
From Coq Require Import String.
From Coq Require Import List Ascii Bool Arith Permutation Sorted Lia.
From Verif Require Import PyBase PyStr MemModel AttrModel GlobModel GlobSpec GlobProofs.
Import ListNotations.
Open Scope list_scope.
Open Scope nat_scope.

(** * C65 *)
(** [list_or_glob] flattens every nested argument, or reports a missing name,
    provided no pattern finds a name which is itself a pattern or cannot be
    used (see the refutations). *)
Theorem C65_flatten_partial : forall isfile isdir glob x, Sane isfile isdir glob ->
  exists enough, forall fuel, enough <= fuel ->
    (exists l, Names isfile isdir glob x l /\ list_or_glob isfile isdir glob fuel x = Some (Ok l)) \/
    ((forall l, ~ Names isfile isdir glob x l) /\ list_or_glob isfile isdir glob fuel x = Some (Err CaputConfigError)).
Proof. intros isfile isdir glob x H. exists (3 + depth x). intros fuel Hf. now apply lg_total. Qed.
Print Assumptions C65_flatten_partial.
(** In particular in a directory whose files have plain names. *)
Theorem C65_directory : forall names x, (forall n, In n names -> ~ Magic n /\ ~ Zarr n) ->
  exists enough, forall fuel, enough <= fuel ->
    (exists l, Names (is_name names) (fun _ => false) (dir_glob names) x l /\ list_or_glob (is_name names) (fun _ => false) (dir_glob names) fuel x = Some (Ok l)) \/
    ((forall l, ~ Names (is_name names) (fun _ => false) (dir_glob names) x l) /\
     list_or_glob (is_name names) (fun _ => false) (dir_glob names) fuel x = Some (Err CaputConfigError)).
Proof. intros names x H. apply C65_flatten_partial. now apply dir_sane. Qed.
Print Assumptions C65_directory.

Definition d1 := [s_ "b2.h5"; s_ "a1.h5"; s_ "b1.h5"; s_ ".b0.h5"; s_ "c.txt"].
Example C65_example :
  list_or_glob (is_name d1) (fun _ => false) (dir_glob d1) 9 (FList [FStr (s_ "c.txt"); FList [FStr (s_ "b*"); FStr (s_ "[!b]?.h5")]]) =
    Some (Ok [s_ "c.txt"; s_ "b1.h5"; s_ "b2.h5"; s_ "a1.h5"]) /\
  list_or_glob (is_name d1) (fun _ => false) (dir_glob d1) 9 (FList [FStr (s_ "c.txt"); FStr (s_ "d.txt")]) = Some (Err CaputConfigError) /\
  (forall n, In n d1 -> ~ Magic n /\ ~ Zarr n).
Proof.
  split; [vm_compute; reflexivity|]. split; [vm_compute; reflexivity|]. intros n Hn. rewrite <- has_magic_iff. unfold Zarr. rewrite <- endswith_iff.
  repeat (destruct Hn as [<-|Hn]; [split; vm_compute; discriminate|]). destruct Hn.
Qed.

(** Names that are patterns are expanded again: another file is given ... *)
Theorem C65_expanded_again_refuted : exists names x,
  (forall n, In n (dir_glob names x) -> is_name names n = true) /\ Permutation (dir_glob names x) names /\
  forall fuel, 5 <= fuel -> list_or_glob (is_name names) (fun _ => false) (dir_glob names) fuel (FStr x) = Some (Ok [s_ "a1.h5"; s_ "a1.h5"]) /\ ~ Permutation names [s_ "a1.h5"; s_ "a1.h5"].
Proof.
  exists [s_ "a[1].h5"; s_ "a1.h5"], (s_ "*.h5"). split; [|split].
  - intros n Hn. apply is_name_iff. now apply dir_glob_names in Hn.
  - vm_compute. reflexivity.
  - intros fuel Hf. destruct fuel as [|[|[|[|[|fuel]]]]]; try lia. split; [vm_compute; reflexivity|].
    intros P. assert (I : In (s_ "a[1].h5") [s_ "a1.h5"; s_ "a1.h5"]) by (eapply Permutation_in; [exact P|now left]). destruct I as [I|[I|[]]]; discriminate.
Qed.
Print Assumptions C65_expanded_again_refuted.
(** ... or the recursion never ends. *)
Theorem C65_endless_refuted : exists names x, is_name names x = true /\
  forall fuel, list_or_glob (is_name names) (fun _ => false) (dir_glob names) fuel (FStr x) = None.
Proof.
  exists [s_ "*"], (s_ "*"). split; [reflexivity|].
  assert (G : dir_glob [s_ "*"] (s_ "*") = [s_ "*"]) by reflexivity.
  intros fuel. induction fuel as [fuel IH] using (well_founded_induction Wf_nat.lt_wf). destruct fuel as [|[|fuel]]; [reflexivity|reflexivity|].
  cbn [list_or_glob]. change (has_magic (s_ "*")) with true. cbn iota. rewrite G. cbn [map py_sorted fold_right sort_insert].
  now rewrite (IH fuel ltac:(lia)).
Qed.
Print Assumptions C65_endless_refuted.
(** A directory found by a pattern is an error although a file was found too. *)
Theorem C65_subdirectory_refuted : exists isfile isdir glob p, In (s_ "data.h5") (glob p) /\ isfile (s_ "data.h5") = true /\
  forall fuel, 4 <= fuel -> list_or_glob isfile isdir glob fuel (FStr p) = Some (Err CaputConfigError).
Proof.
  exists (is_name [s_ "data.h5"]), (is_name [s_ "old"]), (dir_glob [s_ "data.h5"; s_ "old"]), (s_ "*"). split; [now left|]. split; [reflexivity|].
  intros fuel Hf. destruct fuel as [|[|[|[|fuel]]]]; try lia. reflexivity.
Qed.
Print Assumptions C65_subdirectory_refuted.

(** [list_of_filelists] on strings only: the names found, in order.  Missing:
    lists among the arguments. *)
Theorem C65_filelists_partial : forall isfile isdir glob fuel names,
  (list_of_filelists isfile isdir glob fuel (map FStr names) = Some (Ok (map FStr (flat_map glob names))) /\
   forall s, In s names -> In (ch "*") s \/ isfile s = true) \/
  (list_of_filelists isfile isdir glob fuel (map FStr names) = Some (Err CaputConfigError) /\
   exists s, In s names /\ ~ In (ch "*") s /\ isfile s = false).
Proof.
  intros isfile isdir glob fuel names. rewrite lof_strings. destruct (group_files_spec isfile glob names) as [[-> H]|[-> H]]; auto.
Qed.
Print Assumptions C65_filelists_partial.
Example C65_filelists_example :
  list_of_filelists (is_name d1) (fun _ => false) (dir_glob d1) 5 (map FStr [s_ "c.txt"; s_ "b*"]) = Some (Ok (map FStr [s_ "c.txt"; s_ "b2.h5"; s_ "b1.h5"])).
Proof. reflexivity. Qed.
(** Lists among the arguments are not flattened, ... *)
Theorem C65_nested_refuted : exists names args, 
  Names (is_name names) (fun _ => false) (dir_glob names) (FList args) [s_ "a.h5"; s_ "b.h5"] /\
  forall fuel, 1 <= fuel -> list_of_filelists (is_name names) (fun _ => false) (dir_glob names) fuel args = Some (Ok [FList [FStr (s_ "a.h5")]; FList [FStr (s_ "b.h5")]]).
Proof.
  exists [s_ "a.h5"; s_ "b.h5"], [FList [FStr (s_ "a.h5"); FStr (s_ "b.h5")]]. split.
  - assert (K : forall n, n = s_ "a.h5" \/ n = s_ "b.h5" -> Names (is_name [s_ "a.h5"; s_ "b.h5"]) (fun _ => false) (dir_glob [s_ "a.h5"; s_ "b.h5"]) (FStr n) [n]).
    { intros n Hn. apply N_path.
      - rewrite <- has_magic_iff. destruct Hn as [-> | ->]; vm_compute; discriminate.
      - right. split; [unfold Zarr; rewrite <- endswith_iff|]; destruct Hn as [-> | ->]; vm_compute; congruence. }
    apply N_list. change [s_ "a.h5"; s_ "b.h5"] with ([s_ "a.h5"; s_ "b.h5"] ++ []) at 3. constructor; [|constructor]. apply N_list.
    change [s_ "a.h5"; s_ "b.h5"] with ([s_ "a.h5"] ++ [s_ "b.h5"] ++ []) at 3.
    constructor; [apply K; auto|]. constructor; [apply K; auto|constructor].
  - intros fuel Hf. destruct fuel as [|fuel]; [lia|]. reflexivity.
Qed.
Print Assumptions C65_nested_refuted.
(** ... patterns without a star are taken for names, ... *)
Theorem C65_question_mark_refuted : exists names p fuel, dir_glob names p = [s_ "a1.h5"] /\
  list_or_glob (is_name names) (fun _ => false) (dir_glob names) fuel (FStr p) = Some (Ok [s_ "a1.h5"]) /\
  list_of_filelists (is_name names) (fun _ => false) (dir_glob names) fuel [FStr p] = Some (Err CaputConfigError).
Proof. exists [s_ "a1.h5"], (s_ "a?.h5"), 5. repeat split. Qed.
Print Assumptions C65_question_mark_refuted.
(** ... and an existing file with a bracket in its name is lost. *)
Theorem C65_bracket_refuted : exists names s, is_name names s = true /\
  forall fuel, list_of_filelists (is_name names) (fun _ => false) (dir_glob names) fuel [FStr s] = Some (Ok []).
Proof. exists [s_ "a[1].h5"], (s_ "a[1].h5"). split; reflexivity. Qed.
Print Assumptions C65_bracket_refuted.

(** * C66 *)
(** Files of each group.  Missing: patterns without a star. *)
Theorem C66_groups_partial : forall isfile glob groups r, list_of_filegroups isfile glob (inl (map as_group groups)) = Ok r ->
  length r = length groups /\
  forall i files tag, nth_error groups i = Some (files, tag) -> exists t, nth_error r i = Some (t, flat_map glob files) /\ flat_map glob files <> [] /\
    forall s, In s files -> In (ch "*") s \/ isfile s = true.
Proof.
  intros isfile glob groups r H. destruct (group_loop_ok isfile glob groups 0 r H) as [L X]. split; auto.
  intros i files tag N. destruct (X i _ N) as (E & K1 & K2). eauto.
Qed.
Print Assumptions C66_groups_partial.
Theorem C66_accepted_partial : forall isfile glob groups,
  (forall files tag, In (files, tag) groups -> flat_map glob files <> [] /\ forall s, In s files -> In (ch "*") s \/ isfile s = true) ->
  exists r, list_of_filegroups isfile glob (inl (map as_group groups)) = Ok r.
Proof. intros isfile glob groups H. apply group_loop_total. intros [files tag] I. eauto. Qed.
Print Assumptions C66_accepted_partial.
Theorem C66_single : forall isfile glob g, list_of_filegroups isfile glob (inr g) = list_of_filegroups isfile glob (inl [g]).
Proof. reflexivity. Qed.
Print Assumptions C66_single.
(** The documented pattern is rejected although it matches. *)
Theorem C66_pattern_refuted : exists names, dir_glob names (s_ "file[3-4].h5") = [s_ "file3.h5"; s_ "file4.h5"] /\
  list_of_filegroups (is_name names) (dir_glob names) (inl [as_group ([s_ "file1.h5"; s_ "file[3-4].h5"; s_ "file7.h5"], None)]) = Err CaputConfigError.
Proof. exists [s_ "file1.h5"; s_ "file3.h5"; s_ "file4.h5"; s_ "file5.h5"; s_ "file7.h5"]. split; vm_compute; reflexivity. Qed.
Print Assumptions C66_pattern_refuted.
(** A pattern that matches nothing is accepted beside one that matches. *)
Theorem C66_no_match_refuted : exists names, dir_glob names (s_ "x*") = [] /\
  list_of_filegroups (is_name names) (dir_glob names) (inl [as_group ([s_ "x*"; s_ "a.h5"], None)]) = Ok [(s_ "group_0", [s_ "a.h5"])].
Proof. exists [s_ "a.h5"]. split; vm_compute; reflexivity. Qed.
Print Assumptions C66_no_match_refuted.
(** A string instead of a list is read letter by letter. *)
Theorem C66_string_refuted : exists names, is_name names (s_ "ab") = true /\
  list_of_filegroups (is_name names) (dir_glob names) (inr (GDict (Some (FStr (s_ "ab"))) None)) = Ok [(s_ "group_0", [s_ "a"; s_ "b"])].
Proof. exists [s_ "a"; s_ "ab"; s_ "b"]. split; vm_compute; reflexivity. Qed.
Print Assumptions C66_string_refuted.
Example C66_example :
  list_of_filegroups (is_name d1) (dir_glob d1) (inl [as_group ([s_ "b*.h5"; s_ "c.txt"], Some (s_ "first")); as_group ([s_ "a1.h5"], None)]) =
    Ok [(s_ "first", [s_ "b2.h5"; s_ "b1.h5"; s_ "c.txt"]); (s_ "group_1", [s_ "a1.h5"])] /\
  list_of_filegroups (is_name d1) (dir_glob d1) (inl [as_group ([s_ "z*"], None)]) = Err CaputConfigError /\
  list_of_filegroups (is_name d1) (dir_glob d1) (inl [GDict None (Some (s_ "t"))]) = Err CaputConfigError /\
  list_of_filegroups (is_name d1) (dir_glob d1) (inr GOther) = Err CaputConfigError.
Proof. repeat split. Qed.

(** * C94 *)
(** Tags: the given one, else the position counted from zero. *)
Theorem C94_tags : forall isfile glob groups r, list_of_filegroups isfile glob (inl (map as_group groups)) = Ok r ->
  forall i files tag, nth_error groups i = Some (files, tag) ->
    option_map fst (nth_error r i) = Some (match tag with Some t => t | None => s_ "group_" ++ decimal i end).
Proof.
  intros isfile glob groups r H i files tag N. destruct (group_loop_ok isfile glob groups 0 r H) as [_ X]. destruct (X i _ N) as (E & _). now rewrite E.
Qed.
Print Assumptions C94_tags.
(** The documentation counts from one. *)
Theorem C94_documented_refuted : exists isfile glob g1 g2 r, list_of_filegroups isfile glob (inl [as_group g1; as_group g2]) = Ok r /\
  snd g2 = None /\ option_map fst (nth_error r 1) = Some (s_ "group_1") /\ s_ "group_1" <> s_ "group_2".
Proof. exists (is_name d1), (dir_glob d1), ([s_ "c.txt"], Some (s_ "first_group")), ([s_ "a1.h5"], None). eexists. repeat split. discriminate. Qed.
Print Assumptions C94_documented_refuted.
(** A given tag may coincide with an implicit one. *)
Theorem C94_distinct_refuted : exists isfile glob g1 g2 r t, list_of_filegroups isfile glob (inl [as_group g1; as_group g2]) = Ok r /\
  snd g1 = Some t /\ snd g2 = None /\ map fst r = [t; t].
Proof. exists (is_name d1), (dir_glob d1), ([s_ "c.txt"], Some (s_ "group_1")), ([s_ "a1.h5"], None). do 2 eexists. split; [reflexivity|]. repeat split. Qed.
Print Assumptions C94_distinct_refuted.
Example C94_decimal : map decimal [0; 7; 10; 42; 305] = [s_ "0"; s_ "7"; s_ "10"; s_ "42"; s_ "305"].
Proof. reflexivity. Qed.
