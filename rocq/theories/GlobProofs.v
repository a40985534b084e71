(** Lemmas for file lists. *)
From Coq Require Import String.
From Coq Require Import List Ascii Bool Arith Permutation Sorted Lia.
From Verif Require Import PyBase PyStr MemModel MemProofs2 AttrModel AttrProofs ContModel ContProofs GlobModel GlobSpec.
Import ListNotations.
Open Scope list_scope.
Open Scope nat_scope.

Section Ind.
Variable P : farg -> Prop.
Hypothesis HS : forall s, P (FStr s).
Hypothesis HL : forall l, Forall P l -> P (FList l).
Hypothesis HO : P FOther.
Fixpoint farg_ind2 (x : farg) : P x.
Proof.
  destruct x as [s|l|]; [apply HS| |apply HO]. apply HL. induction l as [|y l IH]; constructor; [apply farg_ind2|exact IH].
Defined.
End Ind.

Lemma has_char_in : forall c s, has_char c s = true <-> In c s.
Proof. intros c s. apply existsb_ceqb. Qed.
Lemma has_magic_iff : forall s, has_magic s = true <-> Magic s.
Proof.
  intros s. unfold has_magic, Magic. cbn [s_ list_ascii_of_string existsb]. rewrite !orb_true_iff, !has_char_in. cbn. intuition congruence.
Qed.
Lemma endswith_iff : forall p s, endswith p s = true <-> exists t, s = t ++ p.
Proof.
  intros p s. unfold endswith. rewrite startswith_spec. split; intros [t E].
  - exists (rev t). rewrite <- (rev_involutive s), E, rev_app_distr, rev_involutive. reflexivity.
  - exists (rev t). rewrite E, rev_app_distr. reflexivity.
Qed.

Section Files.
Variables (isfile isdir : str -> bool) (glob : str -> list str).
Notation lg := (list_or_glob isfile isdir glob).
Notation Names := (Names isfile isdir glob).
Notation NamesOf := (NamesOf isfile isdir glob).
Notation There := (There isfile isdir).

(** The loop over a list. *)
Fixpoint lgs (fuel : nat) (l : list farg) : option (res (list str)) :=
  match l with
  | [] => Some (Ok [])
  | f :: l => match lg fuel f with
              | Some (Ok a) => match lgs fuel l with Some (Ok b) => Some (Ok (a ++ b)) | e => e end
              | e => e
              end
  end.
Lemma lg_list : forall fuel l, lg (S fuel) (FList l) = lgs fuel l.
Proof. intros fuel l. cbn [list_or_glob]. induction l as [|f l IH]; [reflexivity|]. cbn [lgs]. now rewrite IH. Qed.
Lemma plain_path_spec : forall s, (plain_path isfile isdir s = Ok [s] /\ There s) \/ (plain_path isfile isdir s = Err CaputConfigError /\ ~ There s).
Proof.
  intros s. unfold plain_path, There. destruct (endswith (s_ ".zarr") s) eqn:E.
  - apply endswith_iff in E. destruct (isdir s) eqn:D; [left; split; auto|]. right. split; [reflexivity|]. intros [[_ K]|[K _]]; [discriminate|now apply K].
  - assert (K : ~ Zarr s) by (intros K; apply endswith_iff in K; congruence). destruct (isfile s) eqn:F; [left; split; auto|].
    right. split; [reflexivity|]. intros [[K' _]|[_ K']]; [now apply K|discriminate].
Qed.

Lemma lgs_paths : forall fuel l, (forall n, In n l -> ~ Magic n /\ There n) -> lgs (S fuel) (map FStr l) = Some (Ok l).
Proof.
  induction l as [|n l IH]; intros H; [reflexivity|]. cbn [map lgs]. destruct (H n (or_introl eq_refl)) as [H1 H2].
  cbn [list_or_glob]. assert (K : has_magic n = false) by (destruct (has_magic n) eqn:K; [apply has_magic_iff in K; contradiction|reflexivity]).
  rewrite K. destruct (plain_path_spec n) as [[-> _]|[_ X]]; [|contradiction]. rewrite IH by (intros m Hm; apply H; now right). reflexivity.
Qed.

Fixpoint depth (x : farg) : nat := match x with FList l => S (fold_right (fun y n => Nat.max (depth y) n) 0 l) | _ => 0 end.
Definition answer (fuel : nat) (x : farg) : Prop :=
  (exists l, Names x l /\ lg fuel x = Some (Ok l)) \/ ((forall l, ~ Names x l) /\ lg fuel x = Some (Err CaputConfigError)).
Lemma lg_total : Sane isfile isdir glob -> forall x fuel, 3 + depth x <= fuel -> answer fuel x.
Proof.
  intros SANE. induction x using farg_ind2; intros fuel Hf; unfold answer.
  - destruct fuel as [|fuel]; [lia|]. cbn [list_or_glob]. destruct (has_magic s) eqn:E.
    + pose proof (proj1 (has_magic_iff s) E) as M. left. exists (py_sorted sleb (glob s)). split.
      * apply N_glob; auto; [apply py_sorted_perm|]. apply py_sorted_sorted; [apply sleb_total|apply sleb_trans].
      * cbn in Hf. destruct fuel as [|[|fuel]]; try lia. rewrite lg_list. apply lgs_paths. intros n Hn. apply (SANE s n M).
        eapply Permutation_in; [apply Permutation_sym, py_sorted_perm|exact Hn].
    + assert (M : ~ Magic s) by (intros M; apply has_magic_iff in M; congruence). destruct (plain_path_spec s) as [[E1 T]|[E1 T]]; rewrite E1.
      * left. exists [s]. split; [now constructor|reflexivity].
      * right. split; [|reflexivity]. intros l N. inversion N; subst; contradiction.
  - destruct fuel as [|fuel]; [lia|]. rewrite lg_list.
    assert (D : Forall (fun x => 3 + depth x <= fuel) l).
    { cbn [depth] in Hf. clear -Hf. induction l as [|y l IH]; constructor; cbn [fold_right] in Hf; [lia|]. apply IH. lia. }
    clear Hf. assert (X : (exists r, NamesOf l r /\ lgs fuel l = Some (Ok r)) \/ ((forall r, ~ NamesOf l r) /\ lgs fuel l = Some (Err CaputConfigError))).
    { induction H as [|y l Hy Hl IH]; [left; exists []; split; [constructor|reflexivity]|]. inversion D; subst. cbn [lgs].
      destruct (Hy fuel H1) as [(a & N & ->)|(N & ->)].
      - destruct (IH H2) as [(r & R & ->)|(R & ->)]; [left; exists (a ++ r); split; [now constructor|reflexivity]|].
        right. split; [|reflexivity]. intros q Q. inversion Q; subst. eapply R; eauto.
      - right. split; [|reflexivity]. intros q Q. inversion Q; subst. eapply N; eauto. }
    destruct X as [(r & R & ->)|(R & ->)]; [left; exists r; split; [now constructor|reflexivity]|]. right. split; [|reflexivity].
    intros q Q. inversion Q; subst. eapply R; eauto.
  - destruct fuel as [|fuel]; [lia|]. right. split; [|reflexivity]. intros l N. inversion N.
Qed.

(** * Groups *)
Lemma missing_iff : forall s, missing isfile s = true <-> ~ In (ch "*") s /\ isfile s = false.
Proof.
  intros s. unfold missing. rewrite andb_true_iff, !negb_true_iff. rewrite <- not_true_iff_false, has_char_in. reflexivity.
Qed.
Lemma group_files_spec : forall names,
  (group_files isfile glob (map FStr names) = Ok (flat_map glob names) /\ forall s, In s names -> In (ch "*") s \/ isfile s = true) \/
  (group_files isfile glob (map FStr names) = Err CaputConfigError /\ exists s, In s names /\ ~ In (ch "*") s /\ isfile s = false).
Proof.
  induction names as [|s names IH]; [left; split; [reflexivity|intros ? []]|]. cbn [map group_files flat_map].
  destruct (missing isfile s) eqn:E.
  - apply missing_iff in E. right. split; [reflexivity|]. exists s. split; [now left|exact E].
  - destruct IH as [[-> IH]|[-> (t & I & T)]]; cbn [rbind].
    + left. split; [reflexivity|]. intros t [<-|I]; [|auto]. destruct (in_dec ascii_dec (ch "*") s) as [K|K]; [now left|right].
      destruct (isfile s) eqn:F; [reflexivity|]. assert (X : missing isfile s = true) by (apply missing_iff; auto). congruence.
    + right. split; [reflexivity|]. exists t. split; [now right|exact T].
Qed.
Lemma lof_strings : forall fuel names,
  list_of_filelists isfile isdir glob fuel (map FStr names) =
  Some (match group_files isfile glob (map FStr names) with Ok r => Ok (map FStr r) | Err e => Err e end).
Proof.
  induction names as [|s names IH]; [reflexivity|]. cbn [map list_of_filelists group_files]. destruct (missing isfile s); [reflexivity|].
  rewrite IH. destruct (group_files isfile glob (map FStr names)) as [r|e]; cbn [rbind]; [|reflexivity]. now rewrite map_app.
Qed.
(** Files and tag of each group, once the files are lists of strings. *)
Definition as_group (g : list str * option str) : garg := GDict (Some (FList (map FStr (fst g)))) (snd g).
Lemma group_loop_ok : forall groups gi r, group_loop isfile glob gi (map as_group groups) = Ok r ->
  length r = length groups /\
  forall i g, nth_error groups i = Some g ->
    nth_error r i = Some (match snd g with Some t => t | None => s_ "group_" ++ decimal (gi + i) end, flat_map glob (fst g)) /\
    flat_map glob (fst g) <> [] /\ (forall s, In s (fst g) -> In (ch "*") s \/ isfile s = true).
Proof.
  induction groups as [|[files tag] groups IH]; intros gi r H.
  - cbn in H. injection H as <-. split; [reflexivity|]. intros [|i] g; discriminate.
  - cbn [map as_group fst snd group_loop members rbind] in H. destruct (group_files_spec files) as [[E T]|[E _]]; rewrite E in H; [|discriminate].
    cbn [rbind] in H. destruct (flat_map glob files) as [|n l] eqn:F; [discriminate|].
    destruct (group_loop isfile glob (S gi) (map as_group groups)) as [r'|] eqn:G; [|discriminate]. cbn [rbind] in H. injection H as <-.
    destruct (IH _ _ G) as [L X]. split; [cbn; lia|]. intros [|i] g; cbn [nth_error].
    + intros K. injection K as <-. cbn [fst snd]. rewrite Nat.add_0_r, F. repeat split; auto. discriminate.
    + intros K. replace (gi + S i) with (S gi + i) by lia. now apply X.
Qed.
Lemma group_loop_total : forall groups gi,
  (forall g, In g groups -> flat_map glob (fst g) <> [] /\ forall s, In s (fst g) -> In (ch "*") s \/ isfile s = true) ->
  exists r, group_loop isfile glob gi (map as_group groups) = Ok r.
Proof.
  induction groups as [|[files tag] groups IH]; intros gi H; [cbn; eauto|]. cbn [map as_group fst snd group_loop members rbind].
  destruct (H (files, tag) (or_introl eq_refl)) as [N T]. cbn [fst] in N, T. destruct (group_files_spec files) as [[-> _]|[_ (s & I & S1 & S2)]].
  - cbn [rbind]. destruct (flat_map glob files); [contradiction|]. destruct (IH (S gi)) as [r ->]; [intros g Hg; apply H; now right|]. cbn; eauto.
  - destruct (T s I) as [K|K]; [contradiction|congruence].
Qed.
End Files.

(** * The plain directory *)
Lemma dir_glob_names : forall names p n, In n (dir_glob names p) -> In n names.
Proof.
  intros names p n H. unfold dir_glob in H. destruct (has_magic p); [apply filter_In in H; tauto|].
  destruct (is_name names p) eqn:E; [|destruct H]. destruct H as [<-|[]]. unfold is_name in E. apply existsb_exists in E as (m & I & E).
  apply seqb_eq in E. now subst.
Qed.
Lemma is_name_iff : forall names s, is_name names s = true <-> In s names.
Proof.
  intros names s. unfold is_name. rewrite existsb_exists. split; [intros (m & I & E); apply seqb_eq in E; now subst|].
  intros I. exists s. split; auto. apply seqb_refl.
Qed.
Lemma dir_sane : forall names, (forall n, In n names -> ~ Magic n /\ ~ Zarr n) -> Sane (is_name names) (fun _ => false) (dir_glob names).
Proof.
  intros names H p n M I. apply dir_glob_names in I. destruct (H n I) as [H1 H2]. split; auto. right. split; auto. now apply is_name_iff.
Qed.
