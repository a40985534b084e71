(** C28, C29: paths and the in-memory tree. *)
From Coq Require Import String.
From Coq Require Import List Ascii Bool Arith.
From Verif Require Import PyBase PyStr MemModel MemSpec MemProofs MemProofs2.
Import ListNotations.
Open Scope list_scope.

(** C28.  The result is the canonical way of writing the names in the path:
    it starts with a slash and the names are nonempty and have no slash. *)
Theorem C28_canonical : forall p, absolute p ->
  format_abs_path p = Ok (canonical (words p)) /\
  Forall (fun w => w <> [] /\ ~ In slash w) (words p).
Proof. exact (fun p H => conj (format_canonical p H) (words_good p)). Qed.
Print Assumptions C28_canonical.

Theorem C28_idempotent : forall p q, format_abs_path p = Ok q -> format_abs_path q = Ok q.
Proof.
  intros p q H. destruct (absolute_dec p) as [Hp|Hp].
  - rewrite format_canonical in H by assumption. injection H as <-.
    rewrite format_canonical by apply canonical_absolute. now rewrite words_canonical by apply words_good.
  - rewrite format_relative in H by assumption. discriminate.
Qed.
Print Assumptions C28_idempotent.

Theorem C28_same_path : forall p q, absolute p -> absolute q ->
  (format_abs_path p = format_abs_path q <-> words p = words q).
Proof.
  intros p q Hp Hq. rewrite !format_canonical by assumption. split; intro H; [|now rewrite H].
  injection H as H. apply (f_equal (cons slash)) in H. change (canonical (words p) = canonical (words q)) in H.
  apply (f_equal words) in H. rewrite !words_canonical in H by apply words_good. exact H.
Qed.
Print Assumptions C28_same_path.

Theorem C28_relative_refused : forall p, ~ absolute p -> format_abs_path p = Err ValueError.
Proof. exact format_relative. Qed.
Print Assumptions C28_relative_refused.

(** Extra slashes anywhere, and at the end, do not change the names. *)
Theorem C28_extra_slashes : forall a b k, words (a ++ repeat slash (S k) ++ b) = words (a ++ slash :: b)
  /\ words (a ++ repeat slash k) = words a.
Proof.
  intros a b k. split; [|apply words_trailing].
  change (repeat slash (S k) ++ b) with (slash :: repeat slash k ++ b). rewrite !words_app. f_equal.
  induction k as [|k IH]; [reflexivity|]. cbn [repeat app]. now rewrite words_slash.
Qed.
Print Assumptions C28_extra_slashes.

(** Lookups by a group object depend only on the names meant: an absolute name
    counts from the root, any other from the group. *)
Theorem C28_lookup_by_names : forall D V (t : node D V) g n g' n', absolute g -> absolute g' ->
  target g n = target g' n' -> getitem t g n = getitem t g' n'.
Proof. intros D V t g n g' n' H H' E. rewrite !getitem_target by assumption. now rewrite E. Qed.
Print Assumptions C28_lookup_by_names.

Example C28_example :
  format_abs_path (s_ "//a///b/") = Ok (s_ "/a/b") /\ format_abs_path (s_ "///") = Ok (s_ "/")
  /\ format_abs_path (s_ "a/b") = Err ValueError
  /\ target (s_ "/a/") (s_ "b//c/") = target (s_ "/x") (s_ "//a/b/c").
Proof. vm_compute. auto. Qed.

(** C29.  Every history of calls ends each call as the map of paths does, and
    afterwards lookups find what the map holds: [s_calls] says which. *)
Theorem C29_tree_is_map : forall D V (cs : list (call D)) t os s' os', Forall proper cs ->
  run_calls (@new_root D V) cs = (t, os) -> s_calls empty_state cs = (s', os') ->
  os = os' /\ forall g n, absolute g ->
    match s' (target g n) with
    | Some EGroup => exists a kids, getitem t g n = Ok (canonical (target g n), Grp a kids)
    | Some (EData d) => getitem t g n = Ok (canonical (target g n), Dset d)
    | None => getitem t g n = Err (missing s' (target g n))
    end.
Proof. exact tree_is_map. Qed.
Print Assumptions C29_tree_is_map.

(** A dataset that was just created is found, under every way of naming it. *)
Theorem C29_created_found : forall D V (cs : list (call D)) g n d t os g' n', Forall proper cs ->
  absolute g -> plain_end n ->
  run_calls (@new_root D V) (cs ++ [CreateDataset g n d]) = (t, os) -> last os None = None ->
  absolute g' -> target g' n' = target g n ->
  getitem t g' n' = Ok (canonical (target g n), Dset d).
Proof.
  intros D V cs g n d t os g' n' Hp Hg Hn Hr Hl Hg' Ht.
  assert (Hp' : Forall proper (cs ++ [CreateDataset g n d])).
  { apply Forall_app. split; [assumption|]. constructor; [split; assumption|constructor]. }
  destruct (s_calls empty_state (cs ++ [CreateDataset g n d])) as [s' os'] eqn:ES.
  destruct (tree_is_map D V _ t os s' os' Hp' Hr ES) as [-> HS].
  specialize (HS g' n' Hg'). rewrite Ht in HS. unfold shows in HS.
  assert (HF : s' (target g n) = Some (EData d)); [|now rewrite HF in HS].
  clear - ES Hl. revert s' os' ES Hl. generalize (@empty_state D). induction cs as [|c cs IH]; intros s s' os' ES Hl.
  - cbn [app s_calls s_call] in ES. pose proof (s_create_dataset_found D s (target g n) d) as F.
    destruct (s_create_dataset s (target g n) d) as [s1 o1]. injection ES as <- <-. apply F. exact Hl.
  - cbn [app s_calls] in ES. destruct (s_call s c) as [s1 o1].
    destruct (s_calls s1 (cs ++ [CreateDataset g n d])) as [s2 os2] eqn:E2. injection ES as <- <-.
    apply (IH s1 s2 os2 E2). destruct os2; [reflexivity|exact Hl].
Qed.
Print Assumptions C29_created_found.

(** One more call changes nothing at the paths that are neither above nor below
    its target. *)
Definition aim {D} (c : call D) : list str :=
  match c with
  | CreateGroup g n | RequireGroup g n | CreateDataset g n _ | RequireDataset g n _ | Delete g n => target g n
  end.
Theorem C29_others_untouched : forall D V (cs : list (call D)) c t os g n d, Forall proper cs -> proper c ->
  run_calls (@new_root D V) cs = (t, os) -> absolute g ->
  prefix (target g n) (aim c) = false -> prefix (aim c) (target g n) = false ->
  (getitem t g n = Ok (canonical (target g n), Dset d) <->
   getitem (fst (run_call t c)) g n = Ok (canonical (target g n), Dset d)).
Proof.
  intros D V cs c t os g n d Hp Hc Hr Hg H1 H2.
  destruct (run_calls_ok cs (@new_root D V) empty_state) as (A & B & C); [eexists; eexists; reflexivity|assumption|apply abstract_new|].
  rewrite Hr in *. cbn [fst snd] in *.
  destruct (run_call_ok t c A Hc) as (A' & B' & C').
  pose proof (s_call_frame D (abstract t) c (target g n)) as F. cbn zeta in F. specialize (F H1 H2).
  rewrite <- C' in F.
  pose proof (getitem_shows D V t _ g n (fun q => eq_refl) Hg) as S1.
  pose proof (getitem_shows D V (fst (run_call t c)) _ g n (fun q => eq_refl) Hg) as S2.
  unfold shows in S1, S2. rewrite F in S2.
  destruct (abstract t (target g n)) as [[|d']|].
  - destruct S1 as (a & k & S1), S2 as (a' & k' & S2). rewrite S1, S2. split; discriminate.
  - rewrite S1, S2. reflexivity.
  - rewrite S1, S2. split; discriminate.
Qed.
Print Assumptions C29_others_untouched.

(** The words of the property that fail.  What is not there can fail with an
    IndexError, below a dataset. *)
Theorem C29_missing_keyerror_refuted : exists (cs : list (call nat)) g n, Forall proper cs /\ absolute g /\
  fst (s_calls empty_state cs) (target g n) = None /\
  getitem (fst (run_calls (@new_root nat nat) cs)) g n = Err IndexError.
Proof.
  exists [CreateDataset (s_ "/") (s_ "a") 7], (s_ "/"), (s_ "a/b").
  split; [constructor; [|constructor]; split; [eexists; reflexivity|exists [], "a"%char; split; [reflexivity|discriminate]]|].
  split; [eexists; reflexivity|]. split; reflexivity.
Qed.
Print Assumptions C29_missing_keyerror_refuted.

(** A dataset created with a slash at the end of its name is not what a lookup
    of that name returns, nor what [create_dataset] itself returns: it is a
    group that holds the dataset under an empty key. *)
Theorem C29_dataset_trailing_slash_refuted : exists g n d kids a x t, absolute g /\
  create_dataset (@new_root nat nat) g n d = (t, Ok x) /\
  x = (s_ "/a", Grp a kids) /\ getitem t g n = Ok x /\ dget [] kids = Some (Dset d).
Proof.
  exists (s_ "/"), (s_ "a/"), 7. eexists. eexists. eexists. eexists.
  split; [eexists; reflexivity|]. split; [vm_compute; reflexivity|].
  split; [reflexivity|]. split; vm_compute; reflexivity.
Qed.
Print Assumptions C29_dataset_trailing_slash_refuted.

(** Something that is found under a name with a slash at the end cannot be
    deleted under it. *)
Theorem C29_delete_trailing_slash_refuted : exists t g n x e, absolute g /\
  t = fst (run_calls (@new_root nat nat) [CreateDataset (s_ "/") (s_ "a") 7]) /\
  getitem t g n = Ok x /\ delitem t g n = (t, Err e).
Proof.
  eexists. exists (s_ "/"), (s_ "a/"). eexists. eexists.
  split; [eexists; reflexivity|]. split; [vm_compute; reflexivity|].
  split; vm_compute; reflexivity.
Qed.
Print Assumptions C29_delete_trailing_slash_refuted.

Example C29_example :
  let cs := [CreateDataset (s_ "/") (s_ "a/b/c") 1; CreateGroup (s_ "/a") (s_ "b"); RequireGroup (s_ "/a") (s_ "/x/y");
             CreateDataset (s_ "/a/b") (s_ "d") 2; Delete (s_ "/") (s_ "a/b/c"); RequireDataset (s_ "/") (s_ "a/b/d") 3;
             CreateDataset (s_ "/a") (s_ "b/d/e") 4] in
  let t := fst (run_calls (@new_root nat nat) cs) in
  snd (run_calls (@new_root nat nat) cs) = [None; Some ValueError; None; None; None; None; Some TypeError]
  /\ getitem t (s_ "/") (s_ "//a/b/d/") = Ok (s_ "/a/b/d", Dset 2)
  /\ getitem t (s_ "/a/b") (s_ "c") = Err KeyError
  /\ getitem t (s_ "/x") (s_ "y") = Ok (s_ "/x/y", Grp [] []).
Proof. vm_compute. auto. Qed.
