(** C93: creation of containers. *)
From Coq Require Import String.
From Coq Require Import List Ascii Bool Arith Lia.
From Verif Require Import PyBase PyStr MemModel MemProofs2 AttrProofs CopyProofs ContModel ContProofs ContProofs2 PartModel SliceModel RedModel RedSpec RedProofs
  DistModel DistProofs InitModel InitSpec InitProofs.
Import ListNotations.
Open Scope list_scope.
Open Scope nat_scope.

(** Every axis, and nothing else, gets its definition. *)
Theorem C93_axes : forall (M A : Type) (mlen : M -> nat) (arange : nat -> M) (zero : A) axes spec kwargs axes_from dsets_from di ac skip c,
  new_container mlen arange zero axes spec kwargs axes_from dsets_from di ac skip = Ok c ->
  map fst (k_index c) = axes /\ forall a m, In (a, m) (k_index c) -> Defines arange kwargs axes_from a m.
Proof.
  intros M A mlen arange zero axes spec kwargs af df di ac skip c H. unfold new_container in H.
  destruct (make_axes arange kwargs af axes) as [index|] eqn:E; [|discriminate]. cbn [rbind] in H.
  destruct (if skip then _ else _) as [d1|]; [|discriminate]. cbn [rbind] in H.
  destruct (match df with None => _ | Some _ => _ end) as [d2|]; [|discriminate]. cbn [rbind] in H. injection H as <-.
  cbn [k_index]. now apply make_axes_ok.
Qed.
Print Assumptions C93_axes.

(** An axis without definition is refused. *)
Theorem C93_missing : forall (M A : Type) (mlen : M -> nat) (arange : nat -> M) (zero : A) axes spec kwargs axes_from dsets_from di ac skip a,
  NoDup (map fst kwargs) -> (forall c, axes_from = Some c -> NoDup (map fst (k_index c))) ->
  In a axes -> (forall m, ~ Defines arange kwargs axes_from a m) ->
  new_container mlen arange zero axes spec kwargs axes_from dsets_from di ac skip = Err RuntimeError.
Proof.
  intros M A mlen arange zero axes spec kwargs af df di ac skip a Nk Nc I H. unfold new_container.
  destruct (make_axes_err arange kwargs af axes) as [(index & E)|(E & _)]; [|now rewrite E].
  exfalso. apply (make_axes_ok_all _ _ _ _ _ E a I). destruct (axis_map arange kwargs af a) as [m|] eqn:K; [|reflexivity].
  destruct (H m). now apply axis_map_defines.
Qed.
Print Assumptions C93_missing.

(** With sensible dataset specifications this is the only error of a container
    created without data. *)
Theorem C93_created : forall (M A : Type) (mlen : M -> nat) (arange : nat -> M) (zero : A) axes spec kwargs axes_from di ac skip,
  NoDup (map fst kwargs) -> (forall c, axes_from = Some c -> NoDup (map fst (k_index c))) -> NoDup (map fst spec) ->
  (forall a, In a axes -> exists m, Defines arange kwargs axes_from a m) -> (forall n d, In (n, d) spec -> Sensible axes d) ->
  exists c, new_container mlen arange zero axes spec kwargs axes_from None di ac skip = Ok c.
Proof.
  intros M A mlen arange zero axes spec kwargs af di ac skip Nk Nc Ns Ha Hs. unfold new_container.
  destruct (make_axes_err arange kwargs af axes) as [(index & E)|(E & a & I & K)].
  - rewrite E. cbn [rbind]. destruct skip; cbn [rbind]; [eauto|]. destruct (make_axes_ok _ _ _ _ _ E) as [<- _].
    destruct (initialise_total mlen zero di ac index spec Ns spec [] (incl_refl _) Hs) as [r ->]. cbn; eauto.
  - destruct (Ha a I) as [m D]. rewrite (defines_axis_map arange kwargs af a m Nk Nc D) in K. discriminate.
Qed.
Print Assumptions C93_created.

(** Without a source the datasets are the ones to be initialised, as specified
    and filled with zeros. *)
Theorem C93_datasets : forall (M A : Type) (mlen : M -> nat) (arange : nat -> M) (zero : A) axes spec kwargs axes_from di ac c,
  NoDup (map fst spec) -> new_container mlen arange zero axes spec kwargs axes_from None di ac false = Ok c ->
  forall n, (forall d, In (n, d) spec -> i_init d = true -> exists x, dget n (k_dsets c) = Some x /\ Fresh mlen zero di ac (k_index c) d x) /\
            ((forall d, In (n, d) spec -> i_init d = false) -> dget n (k_dsets c) = None).
Proof.
  intros M A mlen arange zero axes spec kwargs af di ac c Ns H n. unfold new_container in H.
  destruct (make_axes arange kwargs af axes) as [index|] eqn:E; [|discriminate]. cbn [rbind] in H.
  destruct (initialise mlen zero di ac index spec spec []) as [r|] eqn:Er; [|discriminate]. cbn [rbind] in H. injection H as <-. cbn [k_index k_dsets].
  pose proof (initialise_ok mlen zero di ac index spec Ns spec [] r (incl_refl _) Ns Er n) as X. split.
  - intros d I J. rewrite (dget_nodup _ spec n d Ns I), J in X. exact X.
  - intros Hd. destruct (dget n spec) as [d|] eqn:K; [|exact X]. rewrite (Hd d (dget_elem _ _ _ _ K)) in X. exact X.
Qed.
Print Assumptions C93_datasets.
Theorem C93_skipped : forall (M A : Type) (mlen : M -> nat) (arange : nat -> M) (zero : A) axes spec kwargs axes_from di ac c,
  new_container mlen arange zero axes spec kwargs axes_from None di ac true = Ok c -> k_dsets c = [].
Proof.
  intros M A mlen arange zero axes spec kwargs af di ac c H. unfold new_container in H.
  destruct (make_axes arange kwargs af axes) as [index|] eqn:E; [|discriminate]. cbn [rbind] in H. now injection H as <-.
Qed.
Print Assumptions C93_skipped.

(** With a source: a dataset of the specification whose axes were not given as
    arguments is created if needed and gets the values of the source, provided
    the shapes agree; every other dataset is as without a source. *)
Lemma init_or_skip : forall (M A : Type) (mlen : M -> nat) (zero : A) di ac (index : list (str * M)) spec (skip : bool) d1, NoDup (map fst spec) ->
  (if skip then Ok [] else initialise mlen zero di ac index spec spec []) = Ok d1 ->
  forall n x, dget n d1 = Some x -> exists d, In (n, d) spec /\ Fresh mlen zero di ac index d x.
Proof.
  intros M A mlen zero di ac index spec skip d1 Ns H n x Hx. destruct skip; [injection H as <-; discriminate|].
  pose proof (initialise_ok mlen zero di ac index spec Ns spec [] d1 (incl_refl _) Ns H n) as X.
  destruct (dget n spec) as [d|] eqn:K; [|rewrite Hx in X; discriminate]. exists d. split; [now apply dget_elem|].
  destruct (i_init d); [|rewrite Hx in X; discriminate]. destruct X as (y & Hy & F). rewrite Hx in Hy. now injection Hy as <-.
Qed.
Theorem C93_copied_partial : forall (M A : Type) (mlen : M -> nat) (arange : nat -> M) (zero : A) axes spec kwargs axes_from src di ac skip c n d s,
  NoDup (map fst spec) -> new_container mlen arange zero axes spec kwargs axes_from (Some src) di ac skip = Ok c ->
  In (n, d) spec -> dget n (k_dsets src) = Some s ->
  (forall a, In (AName a) (b_axes s) -> ~ (In a axes /\ In a (map fst kwargs))) ->
  exists y, dget n (k_dsets c) = Some y /\ b_axes y = i_axes d /\ HasShape mlen (k_index c) (i_axes d) (shp (b_val y)) /\
            (shp (b_val s) = shp (b_val y) -> SameArray (b_val y) (b_val s)).
Proof.
  intros M A mlen arange zero axes spec kwargs af src di ac skip c n d s Ns H I Hs Ha. unfold new_container in H.
  destruct (make_axes arange kwargs af axes) as [index|] eqn:E; [|discriminate]. cbn [rbind] in H.
  destruct (if skip then _ else _) as [d1|] eqn:E1; [|discriminate]. cbn [rbind] in H.
  destruct (copy_dsets _ _ _ _ _ _ _ _ _ _) as [d2|] eqn:E2; [|discriminate]. cbn [rbind] in H. injection H as <-. cbn [k_index k_dsets].
  pose proof (copy_dsets_ok mlen zero di ac index spec Ns _ _ spec d1 d2 (incl_refl _) Ns E2 n) as X.
  rewrite (dget_nodup _ spec n d Ns I) in X. unfold taken in X. rewrite Hs in X.
  assert (Z : existsb (axis_changed (filter (fun a => mem_name a (map fst kwargs)) axes)) (b_axes s) = false).
  { destruct (existsb _ (b_axes s)) eqn:Z; [|reflexivity]. apply existsb_exists in Z as (a & Ia & K). destruct a as [a|l]; [|discriminate].
    cbn [axis_changed] in K. apply mem_name_in in K. apply filter_In in K as [K1 K2]. apply mem_name_in in K2. destruct (Ha a Ia). auto. }
  rewrite Z in X. destruct X as (x & y & Hx & Hy & A1 & A2 & A3 & A4 & A5). exists y. split; [exact Hy|].
  assert (F : Fresh mlen zero di ac index d x).
  { destruct Hx as [Hx|[_ Hx]]; [|exact Hx]. destruct (init_or_skip _ _ _ _ _ _ _ _ _ _ Ns E1 n x Hx) as (d' & I' & F).
    pose proof (dget_nodup _ spec n d Ns I) as K1. rewrite (dget_nodup _ spec n d' Ns I') in K1. now injection K1 as <-. }
  destruct F as (F1 & F2 & _). rewrite A1, A4. repeat split; auto; now apply A5.
Qed.
Print Assumptions C93_copied_partial.
Theorem C93_not_copied : forall (M A : Type) (mlen : M -> nat) (arange : nat -> M) (zero : A) axes spec kwargs axes_from src di ac skip c c0 n,
  NoDup (map fst spec) -> new_container mlen arange zero axes spec kwargs axes_from (Some src) di ac skip = Ok c ->
  new_container mlen arange zero axes spec kwargs axes_from None di ac skip = Ok c0 ->
  (~ In n (map fst spec) \/ dget n (k_dsets src) = None \/
   exists s a, dget n (k_dsets src) = Some s /\ In (AName a) (b_axes s) /\ In a axes /\ In a (map fst kwargs)) ->
  dget n (k_dsets c) = dget n (k_dsets c0).
Proof.
  intros M A mlen arange zero axes spec kwargs af src di ac skip c c0 n Ns H H0 Q. unfold new_container in H, H0.
  destruct (make_axes arange kwargs af axes) as [index|] eqn:E; [|discriminate]. cbn [rbind] in H, H0.
  destruct (if skip then _ else _) as [d1|] eqn:E1; [|discriminate]. cbn [rbind] in H, H0. injection H0 as <-.
  destruct (copy_dsets _ _ _ _ _ _ _ _ _ _) as [d2|] eqn:E2; [|discriminate]. cbn [rbind] in H. injection H as <-. cbn [k_dsets].
  pose proof (copy_dsets_ok mlen zero di ac index spec Ns _ _ spec d1 d2 (incl_refl _) Ns E2 n) as X.
  destruct Q as [Q|[Q|(s & a & Q1 & Q2 & Q3 & Q4)]].
  - now rewrite (proj2 (dget_none n spec) Q) in X.
  - unfold taken in X. rewrite Q in X. now destruct (dget n spec).
  - assert (T : taken (filter (fun a => mem_name a (map fst kwargs)) axes) (k_dsets src) n = None).
    { unfold taken. rewrite Q1. replace (existsb _ (b_axes s)) with true; [reflexivity|]. symmetry. apply existsb_exists. exists (AName a). split; auto.
      cbn [axis_changed]. apply mem_name_in, filter_In. split; auto. now apply mem_name_in. }
    rewrite T in X. now destruct (dget n spec).
Qed.
Print Assumptions C93_not_copied.

(** Arguments that name no axis change nothing. *)
Theorem C93_unknown_ignored : forall (M A : Type) (mlen : M -> nat) (arange : nat -> M) (zero : A) axes spec kwargs a v axes_from dsets_from di ac skip,
  ~ In a axes ->
  new_container mlen arange zero axes spec ((a, v) :: kwargs) axes_from dsets_from di ac skip =
  new_container mlen arange zero axes spec kwargs axes_from dsets_from di ac skip.
Proof.
  intros M A mlen arange zero axes spec kwargs a v af df di ac skip Ha. unfold new_container.
  assert (E1 : make_axes arange ((a, v) :: kwargs) af axes = make_axes arange kwargs af axes).
  { clear spec df. induction axes as [|b axes IH]; [reflexivity|]. cbn [make_axes]. rewrite IH by (intros K; apply Ha; now right).
    assert (K : seqb b a = false) by (apply seqb_neq; intros ->; apply Ha; now left). unfold axis_map. cbn [dget]. now rewrite K. }
  rewrite E1.
  assert (E2 : filter (fun b => mem_name b (map fst ((a, v) :: kwargs))) axes = filter (fun b => mem_name b (map fst kwargs)) axes).
  { apply filter_ext_in. intros b Hb. apply eq_true_iff_eq. rewrite !mem_name_in. cbn [map fst In]. split; [intros [->|K]; [contradiction|auto]|auto]. }
  now rewrite E2.
Qed.
Print Assumptions C93_unknown_ignored.

(** The values may differ although no axis was given as an argument: a source
    with a length of one is stretched when the axes come from elsewhere, ... *)
Definition a_x := s_ "x". Definition a_y := s_ "y". Definition d_v := s_ "v".
Definition ar (n : nat) : list nat := seq 0 n.
Definition sp1 : list (str * ispec) := [(d_v, mkispec [AName a_x] None true true None)].
Definition src1 : @cont (list nat) nat := mkcont [(a_x, [7])] [(d_v, mkid [AName a_x] (mknd [1] (fun _ => 5)) (Some 0) None)].
Definition ax1 : @cont (list nat) nat := mkcont [(a_x, [1; 2; 3])] [].
Theorem C93_stretched_refuted :
  exists c y s, new_container (@length nat) ar 0 [a_x] sp1 [] (Some ax1) (Some src1) true true false = Ok c /\
    dget d_v (k_dsets c) = Some y /\ dget d_v (k_dsets src1) = Some s /\ shp (b_val s) = [1] /\ shp (b_val y) = [3] /\ elt (b_val y) [2] = 5.
Proof. eexists. eexists. eexists. split; [reflexivity|]. repeat split. Qed.
Print Assumptions C93_stretched_refuted.
(** ... and a source with the same axes in another order is copied as it lies. *)
Definition sp2 : list (str * ispec) := [(d_v, mkispec [AName a_x; AName a_y] None true true None)].
Definition tab (idx : list nat) : nat := match idx with [i; j] => 10 * i + j | _ => 0 end.
Definition src2 : @cont (list nat) nat := mkcont [(a_x, [1; 2]); (a_y, [3; 4])] [(d_v, mkid [AName a_y; AName a_x] (mknd [2; 2] tab) (Some 0) None)].
Theorem C93_transposed_refuted :
  exists c y s, new_container (@length nat) ar 0 [a_x; a_y] sp2 [] (Some src2) (Some src2) true true false = Ok c /\
    dget d_v (k_dsets c) = Some y /\ dget d_v (k_dsets src2) = Some s /\ b_axes s = [AName a_y; AName a_x] /\ b_axes y = [AName a_x; AName a_y] /\
    elt (b_val y) [0; 1] = elt (b_val s) [0; 1] /\ elt (b_val y) [0; 1] <> elt (b_val s) [1; 0].
Proof. eexists. eexists. eexists. split; [reflexivity|]. repeat split. cbn. discriminate. Qed.
Print Assumptions C93_transposed_refuted.

(** Example: [freq] from the source, [time] given; the dataset over [freq] is
    taken over, the one over both starts empty. *)
Definition e_spec : list (str * ispec) :=
  [(s_ "gain", mkispec [AName (s_ "freq")] None false true None);
   (s_ "vis", mkispec [AName (s_ "freq"); AName (s_ "time"); ALen 2] (Some (AName (s_ "time"))) true true (Some [2; 64; 1]))].
Definition e_src : @cont (list nat) nat :=
  mkcont [(s_ "freq", [400; 800; 600]); (s_ "time", [1; 2])]
    [(s_ "gain", mkid [AName (s_ "freq")] (mknd [3] (fun i => 7 + hd 0 i)) (Some 0) None);
     (s_ "vis", mkid [AName (s_ "freq"); AName (s_ "time"); ALen 2] (mknd [3; 2; 2] (fun _ => 9)) (Some 1) None)].
Example C93_example : exists c g v,
  new_container (@length nat) ar 0 [s_ "freq"; s_ "time"] e_spec [(s_ "time", KInt 4)] (Some e_src) (Some e_src) true true false = Ok c /\
  k_index c = [(s_ "freq", [400; 800; 600]); (s_ "time", [0; 1; 2; 3])] /\
  dget (s_ "gain") (k_dsets c) = Some g /\ elt (b_val g) [2] = 9 /\
  dget (s_ "vis") (k_dsets c) = Some v /\ shp (b_val v) = [3; 4; 2] /\ elt (b_val v) [0; 0; 0] = 0 /\ b_dist v = Some 1 /\ b_chunks v = Some [2; 4; 1].
Proof. eexists. eexists. eexists. split; [reflexivity|]. repeat split. Qed.
Example C93_example_sensible : forall n d, In (n, d) e_spec -> Sensible [s_ "freq"; s_ "time"] d.
Proof.
  intros n d [K|[K|[]]]; injection K as <- <-; unfold Sensible; cbn [i_axes i_dist i_chunks].
  - split; [intros a [H|[]]; injection H as <-; now left|]. split; [discriminate|discriminate].
  - split; [intros a [H|[H|[H|[]]]]; try discriminate; injection H as <-; cbn; auto|]. split; [right; now left|]. intros cs H. injection H as <-. cbn. auto.
Qed.
Example C93_example_missing :
  new_container (@length nat) ar 0 [s_ "freq"; s_ "time"] e_spec [(s_ "time", KNone)] (Some e_src) None true true false = Err RuntimeError.
Proof. reflexivity. Qed.
