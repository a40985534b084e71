(** C67, C99, C100: file formats. *)
From Coq Require Import String.
From Coq Require Import List Ascii Bool Arith ZArith Lia.
From Verif Require Import PyBase PyStr GlobModel GlobProofs FmtModel FmtSpec.
Import ListNotations.
Open Scope list_scope.
Open Scope nat_scope.

(** * C67 *)
(** Nothing, or a format class, is taken as it is. *)
Theorem C67_accepted_partial : from_config CNone = Ok FNone /\ forall f, from_config (CFormat f) = Ok (FFormat f).
Proof. split; reflexivity. Qed.
Print Assumptions C67_accepted_partial.
(** Everything else but the abstract class is refused with a configuration
    error: every name too. *)
Theorem C67_refused : forall v, v <> CNone -> v <> CAbstract -> (forall f, v <> CFormat f) -> from_config v = Err CaputConfigError.
Proof. intros [| s|f| | |] H1 H2 H3; try reflexivity; [congruence|now elim (H3 f)|congruence]. Qed.
Print Assumptions C67_refused.
Theorem C67_names_refuted : exists s, lower s = s_ "hdf5" /\ from_config (CStr s) = Err CaputConfigError /\ prop (CStr s) = Err TypeError.
Proof. exists (s_ "HDF5"). repeat split. Qed.
Print Assumptions C67_names_refuted.
(** A default name is accepted, but reading the property fails. *)
Theorem C67_default_refuted : exists d, file_format (CStr (s_ "zarr")) = Ok d /\ get_unset d = Err TypeError.
Proof. exists (CStr (s_ "zarr")). split; reflexivity. Qed.
Print Assumptions C67_default_refuted.
(** The documentation allows a format class as default. *)
Theorem C67_class_default_refuted : exists f, file_format (CFormat f) = Err CaputConfigError.
Proof. exists HDF5. reflexivity. Qed.
Print Assumptions C67_class_default_refuted.
Theorem C67_abstract_refuted : exists v, (forall f, v <> CFormat f) /\ v <> CNone /\ from_config v = Ok FAbstract.
Proof. exists CAbstract. repeat split; discriminate. Qed.
Print Assumptions C67_abstract_refuted.
Example C67_example : file_format CNone = Ok CNone /\ get_unset CNone = Ok FNone /\ file_format (CStr (s_ "tiff")) = Err CaputConfigError /\
  file_format (CStr (s_ "ZARR")) = Ok (CStr (s_ "ZARR")) /\ from_config CClass = Err CaputConfigError.
Proof. repeat split. Qed.

(** * C99 *)
Lemma ends_iff : forall e name, endswith (s_ e) name = true <-> Ends e name.
Proof. intros. apply endswith_iff. Qed.
Lemma ends_false : forall e name, endswith (s_ e) name = false <-> ~ Ends e name.
Proof. intros. rewrite <- ends_iff. apply iff_sym, not_true_iff_false. Qed.
Lemma zarr_not_h5 : forall name, Ends ".zarr" name \/ Ends ".zarr.zip" name -> Ends ".h5" name \/ Ends ".hdf5" name -> False.
Proof.
  assert (G : forall e name, e <> EmptyString -> Ends e name -> name <> [] /\ forall d, last name d = last (s_ e) d).
  { intros e name N (t & ->). split; [destruct e; [congruence|]; destruct t; discriminate|]. intros d.
    assert (s_ e <> []) as M by (destruct e; [congruence|discriminate]). destruct (exists_last M) as (l & x & E). rewrite E, app_assoc, !last_last. reflexivity. }
  intros name [H|H] [H'|H']; apply G in H as [N H]; try discriminate; apply G in H' as [_ H']; try discriminate;
    specialize (H "0"%char); specialize (H' "0"%char); rewrite H in H'; discriminate.
Qed.
Theorem C99_guess : forall is_dir name r, guess is_dir name None = r <-> NameOf is_dir name r.
Proof.
  intros is_dir name r. unfold guess. split.
  - intros <-. destruct (endswith (s_ ".zarr.zip") name) eqn:E1; [constructor; right; left; now apply ends_iff|].
    destruct (endswith (s_ ".zarr") name) eqn:E2; [constructor; left; now apply ends_iff|]. cbn [orb].
    destruct (is_dir name) eqn:E3; [constructor; auto|].
    destruct (endswith (s_ ".h5") name) eqn:E4; [constructor; [exact E3|left; now apply ends_iff]|]. cbn [orb].
    destruct (endswith (s_ ".hdf5") name) eqn:E5; [constructor; [exact E3|right; now apply ends_iff]|].
    constructor; [exact E3|]. intros e [<-|[<-|[<-|[<-|[]]]]]; now apply ends_false.
  - intros H. inversion H as [D|D F|D F]; subst.
    + destruct D as [D|[D|D]]; [apply ends_iff in D; rewrite D|apply ends_iff in D; rewrite D; reflexivity|rewrite D].
      * destruct (endswith (s_ ".zarr.zip") name); reflexivity.
      * rewrite orb_true_r. destruct (endswith (s_ ".zarr.zip") name); reflexivity.
    + assert (Z1 : endswith (s_ ".zarr.zip") name = false) by (apply ends_false; intros Z; eapply zarr_not_h5; eauto).
      assert (Z2 : endswith (s_ ".zarr") name = false) by (apply ends_false; intros Z; eapply zarr_not_h5; eauto).
      rewrite Z1, Z2, D. cbn [orb]. destruct F as [F|F]; apply ends_iff in F; rewrite F; [reflexivity|]. rewrite orb_true_r. reflexivity.
    + rewrite !(proj2 (ends_false _ name)) by (apply F; cbn; auto). rewrite D. reflexivity.
Qed.
Print Assumptions C99_guess.
(** The format is accepted exactly if what is known agrees, and something else
    confirms a requested format. *)
Theorem C99_check : forall is_dir name given data n, NameOf is_dir name n ->
  ((exists r, check_format is_dir name given false data = Ok r) <->
    Agree given data /\ Agree given n /\ Agree data n /\ (given <> None -> data <> None \/ n <> None)) /\
  forall r, check_format is_dir name given false data = Ok r -> Agree r given /\ Agree r data /\ Agree r n /\ (given <> None \/ data <> None \/ n <> None -> r <> None).
Proof.
  intros is_dir name given data n N. apply C99_guess in N. unfold check_format. rewrite N. clear N. unfold Agree.
  destruct given as [[]|], data as [[]|], n as [[]|]; cbn; (split; [split; [intros [r H]; try discriminate; repeat split; intros; try congruence; try (left; discriminate); try (right; discriminate) |
    intros (A & B & C & D); try (eexists; reflexivity); exfalso;
      first [now specialize (A _ _ eq_refl eq_refl)|now specialize (B _ _ eq_refl eq_refl)|now specialize (C _ _ eq_refl eq_refl)|destruct D as [D|D]; [discriminate|now apply D|now apply D]]] |
    intros r H; try discriminate; injection H as <-; repeat split; intros; try congruence; intuition congruence]).
Qed.
Print Assumptions C99_check.
(** A requested format is refused for names without a known ending. *)
Theorem C99_requested_refuted : exists name, NameOf (fun _ => false) name None /\ check_format (fun _ => false) name (Some HDF5) false None = Err ValueError.
Proof. exists (s_ "out.dat"). split; [now apply C99_guess|reflexivity]. Qed.
Print Assumptions C99_requested_refuted.
(** Without a request the answer is no format, not HDF5 as documented. *)
Theorem C99_default_refuted : exists name, check_format (fun _ => false) name None false None = Ok None /\ guess (fun _ => false) name (Some HDF5) = Some HDF5.
Proof. exists (s_ "out.dat"). split; reflexivity. Qed.
Print Assumptions C99_default_refuted.
Example C99_example : check_format (fun _ => false) (s_ "a.zarr.zip") (Some Zarr) false None = Ok (Some Zarr) /\
  check_format (fun _ => false) (s_ "a.h5") (Some Zarr) false None = Err ValueError /\
  check_format (fun _ => false) (s_ "a.h5") None false (Some Zarr) = Err ValueError /\
  check_format (fun _ => false) (s_ "a") None false (Some Zarr) = Ok (Some Zarr) /\
  check_format (fun _ => true) (s_ "a.h5") None false None = Ok (Some Zarr).
Proof. repeat split. Qed.

(** * C100 *)
(** Every spelling of bitshuffle with LZ4 gives the same filter in HDF5 and the
    same compressor in Zarr. *)
Theorem C100_spellings : forall (K : Type) f c bs b, Bitshuffle f -> Lz4 c -> Block bs b ->
  hdf5_kwargs true f (OSeq [bs; c]) false = Ok (Some (AInt 32008, OSeq [AInt b; AInt 2])) /\
  zarr_kwargs true f (OSeq [bs; c]) (@None K) = Ok (Blosc (AStr (s_ "lz4")) b).
Proof. intros K f c bs b [] [] []; split; reflexivity. Qed.
Print Assumptions C100_spellings.
(** The HDF5 arguments are a fixed point: copies keep them. *)
Theorem C100_stable : forall enabled c o r, hdf5_kwargs enabled c o false = Ok r ->
  match r with
  | None => c = ANone
  | Some (c', o') => hdf5_kwargs enabled c' o' false = Ok r
  end.
Proof.
  intros enabled c o r H. unfold hdf5_kwargs in H. destruct (is_bitshuffle c && negb enabled) eqn:B; [discriminate|].
  destruct (enabled && is_filter c) eqn:F.
  - apply andb_true_iff in F as [-> F].
    assert (G : exists bs x, unpack2 o = Ok (bs, x) /\
      r = Some (AInt H5FILTER, OSeq [zero_if_none bs; match x with AStr s => if seqb s (s_ "2") || seqb s (s_ "lz4") then AInt H5_COMPRESS_LZ4 else x | _ => x end])).
    { destruct o as [|l|a]; [discriminate| |]; destruct (unpack2 _) as [[bs x]|]; try discriminate; injection H as <-; exists bs, x; auto. }
    destruct G as (bs & x & _ & ->). unfold hdf5_kwargs. cbn [is_bitshuffle andb is_filter]. rewrite Z.eqb_refl. cbn [unpack2 rbind].
    assert (Z0 : zero_if_none (zero_if_none bs) = zero_if_none bs) by (destruct bs; reflexivity). rewrite Z0.
    destruct x as [|z|s]; try reflexivity. destruct (seqb s (s_ "2") || seqb s (s_ "lz4")) eqn:E9; [reflexivity|]. rewrite E9. reflexivity.
  - cbn [rbind] in H. destruct c; injection H as <-; auto; unfold hdf5_kwargs; rewrite B, F; reflexivity.
Qed.
Print Assumptions C100_stable.
(** No compression: nothing is passed, whatever the options. *)
Theorem C100_none : forall (K : Type) enabled o, hdf5_kwargs enabled ANone o false = Ok None /\
  zarr_kwargs enabled ANone o (@None K) = Ok NoCodec /\ forall k : K, zarr_kwargs enabled ANone ONone (Some k) = Ok (Given k).
Proof. intros K enabled o. split; [|split; reflexivity]. unfold hdf5_kwargs. cbn. rewrite andb_false_r. reflexivity. Qed.
Print Assumptions C100_none.
(** A compressor beside other arguments is refused. *)
Theorem C100_both : forall (K : Type) enabled c o (k : K), falsy c = false \/ opts_given o = true ->
  zarr_kwargs enabled c o (Some k) = Err ValueError /\ forall c o, hdf5_kwargs enabled c o true = Err OtherException.
Proof.
  intros K enabled c o k H. split; [|reflexivity]. unfold zarr_kwargs. cbn [andb]. destruct H as [-> | ->]; [reflexivity|]. now rewrite orb_true_r.
Qed.
Print Assumptions C100_both.
(** Missing options: ValueError in HDF5, but TypeError in Zarr. *)
Theorem C100_missing_refuted : exists f, hdf5_kwargs true f ONone false = Err ValueError /\ zarr_kwargs true f ONone (@None nat) = Err TypeError.
Proof. exists (AStr (s_ "bitshuffle")). split; reflexivity. Qed.
Print Assumptions C100_missing_refuted.
(** A Zarr dataset has a compressor: it cannot be copied to HDF5. *)
Theorem C100_zarr_to_hdf5_refuted : exists c o (k : nat), zarr_kwargs true c o (Some k) = Ok (Given k) /\ hdf5_kwargs true c o true = Err OtherException.
Proof. exists ANone, ONone, 0. split; reflexivity. Qed.
Print Assumptions C100_zarr_to_hdf5_refuted.
(** Without bitshuffle even gzip is refused by Zarr. *)
Theorem C100_gzip_refuted : exists o, hdf5_kwargs false (AStr (s_ "gzip")) o false = Ok (Some (AStr (s_ "gzip"), o)) /\ zarr_kwargs false (AStr (s_ "gzip")) o (@None nat) = Err ValueError.
Proof. exists (OScalar (AInt 4)). split; reflexivity. Qed.
Print Assumptions C100_gzip_refuted.
Example C100_example : hdf5_kwargs true (AStr (s_ "bitshuffle")) (OSeq [ANone; AStr (s_ "lz4")]) false = Ok (Some (AInt 32008, OSeq [AInt 0; AInt 2])) /\
  zarr_kwargs true (AInt 32008) (OSeq [AInt 512; AInt 2]) (@None nat) = Ok (Blosc (AStr (s_ "lz4")) 512) /\
  zarr_kwargs true (AStr (s_ "gzip")) (OScalar (AInt 7)) (@None nat) = Ok (Gzip (OScalar (AInt 7))) /\
  hdf5_kwargs true (AStr (s_ "gzip")) (OScalar (AInt 7)) false = Ok (Some (AStr (s_ "gzip"), OScalar (AInt 7))) /\
  hdf5_kwargs true (AInt 32008) (OSeq [AInt 0]) false = Err ValueError /\ zarr_kwargs true (AStr (s_ "szip")) ONone (@None nat) = Err ValueError /\
  hdf5_kwargs false (AStr (s_ "bitshuffle")) ONone false = Err RuntimeError.
Proof. repeat split. Qed.
