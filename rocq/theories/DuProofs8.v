(** Expressions of distributed arrays, and what is refused. *)
From Coq Require Import List Arith ZArith Bool Lia Permutation.
From Verif Require Import PyBase PartSpec PartModel PartProofs PartProps0 SliceModel RedModel RedSpec RedProofs AxModel AxSpec AxProofs AxProofs2 DuModel DuSpec DuProofs DuProofs2 DuProofs3 DuProofs4 DuProofs5 DuProofs6 DuProofs7.
Import ListNotations.
Open Scope nat_scope.

Section WithA.
Context {A : Type}.

Lemma expr_ind' : forall P : expr A -> Prop,
  (forall v, P (EVar v)) -> (forall u i args, Forall P args -> P (ECall u i args)) ->
  (forall u axes keep e, P e -> P (EReduce u axes keep e)) -> (forall u z e, P e -> P (EAccumulate u z e)) ->
  (forall a e, P e -> P (ETranspose a e)) -> (forall sl e, P e -> P (EIndex sl e)) -> forall e, P e.
Proof.
  intros P H1 H2 H3 H4 H5 H6. fix IH 1. intros [v|u i args|u axes keep e|u z e|a e|sl e];
    [apply H1|apply H2|apply H3, IH|apply H4, IH|apply H5, IH|apply H6, IH].
  induction args; constructor; [apply IH|assumption].
Qed.
Lemma holds_stands : forall c j n (x : nd A * option nat) i, Suits j n x -> Holds c x i -> StandsFor c j n i (fst x).
Proof.
  intros c j n [G [k|]] i HF HH; cbn [Suits Holds fst snd] in *; unfold Suits, Holds in *; cbn [fst snd] in *.
  - destruct HH as (d & -> & HP). destruct HF. eapply SfDist; eassumption.
  - destruct i as [d|a|s]; [contradiction| |]; subst G.
    + now apply SfCommon.
    + apply SfScalar.
Qed.
Lemma map_snd_whole : forall k its, NoDup (map fst (filter (fun it : option nat * ient => match fst it with Some _ => true | None => false end) its)) ->
  In (Some k, ISl full_slice) its -> map (whole_on k) its = its.
Proof.
  intros k its. induction its as [|(x, e) its IH]; intros N H; [contradiction|]. cbn [map].
  destruct x as [y|]; cbn [filter fst map] in N.
  - apply NoDup_cons_iff in N. destruct N as [N1 N2]. destruct H as [H|H].
    + injection H as -> ->. unfold whole_on at 1. cbn [fst]. rewrite Nat.eqb_refl. f_equal. apply whole_off.
      intros f Hf. apply N1. apply in_map_iff. exists (Some k, f). split; [reflexivity|]. apply filter_In. auto.
    + rewrite IH by assumption. f_equal. unfold whole_on. cbn [fst]. destruct (Nat.eqb_spec y k) as [->|]; [|reflexivity].
      exfalso. apply N1. apply in_map_iff. exists (Some k, ISl full_slice). split; [reflexivity|]. apply filter_In. auto.
  - destruct H as [H|H]; [discriminate|]. rewrite IH by assumption. reflexivity.
Qed.
Lemma items_somes : forall sl axes, NoDup axes ->
  NoDup (map fst (filter (fun it : option nat * ient => match fst it with Some _ => true | None => false end) (items sl axes))).
Proof.
  induction sl as [|e sl IH]; intros axes N; [constructor|].
  destruct e; cbn [items]; [cbn [filter fst]; now apply IH| | |]; (destruct axes as [|y axes]; [constructor|]);
    cbn [filter fst map]; apply NoDup_cons_iff in N; destruct N as [N1 N2]; constructor; auto;
    intros Hin; apply in_map_iff in Hin; destruct Hin as ((z, f) & Hz & Hin); cbn [fst] in Hz; subst z;
    apply filter_In in Hin; destruct Hin as [Hin _]; apply N1; eapply items_axes, Hin.
Qed.

Lemma eval_holds : forall c (env : nat -> input A) (genv : nat -> nd A * option nat) e x, c_rank c < c_size c -> (forall v, Holds c (genv v) (env v)) ->
  Den genv e x -> exists i, eval env e = Ok i /\ Holds c x i.
Proof.
  intros c env genv e x Hc HE. revert x. induction e as [v|u i args IH|u axes keep e IH|u z e IH|a e IH|sl e IH] using expr_ind'; intros x HD.
  - inversion HD; subst. exists (env v). split; [reflexivity|apply HE].
  - inversion HD as [|? ? ? xs j n R HF FF (G0 & k0 & HI) Hi HEl| | | |]; subst. cbn [eval].
    assert (EV : exists is, rsequence (map (eval env) args) = Ok is /\ Forall2 (Holds c) xs is).
    { clear - IH HF. induction HF as [|e x args xs Hd HF IHF]; [exists []; split; [reflexivity|constructor]|].
      apply Forall_cons_iff in IH. destruct IH as [IHe IH]. destruct (IHe _ Hd) as (i & E1 & E2). destruct (IHF IH) as (is & E3 & E4).
      exists (i :: is). cbn [map rsequence]. rewrite E1. cbn [rbind]. rewrite E3. split; [reflexivity|now constructor]. }
    destruct EV as (is & -> & HH). cbn [rbind].
    assert (SF : Forall2 (StandsFor c j n) is (map fst xs)).
    { clear - FF HH. revert is HH. induction xs as [|x xs IH]; intros is HH; inversion HH; subst; cbn [map]; constructor.
      - apply Forall_cons_iff in FF. destruct FF. eapply holds_stands; eassumption.
      - apply IH; [now apply Forall_cons_iff in FF|assumption]. }
    assert (HD' : exists d, In (InDist d) is).
    { clear - HI HH. induction HH as [|x i xs is H HH IH]; [contradiction|]. destruct HI as [->|HI].
      - destruct H as (d & -> & _). exists d. now left.
      - destruct (IH HI) as (d & Hd). exists d. now right. }
    destruct (call_ok c j n is (map fst xs) u (plain_kw None false) Hc SF HD' ltac:(discriminate) (shp R) eq_refl (proj1 HEl)) as (ds & -> & _ & K).
    destruct (K i R Hi HEl) as (d & Ed & HP). cbn [rbind]. unfold item. rewrite Ed. exists (InDist d). split; [reflexivity|].
    exists d. split; [reflexivity|exact HP].
  - inversion HD as [| |? ? ? ? G k red R p HDe HN ND NK HI HR Hp| | |]; subst. destruct (IH _ HDe) as (i & E & (d & -> & HP)). cbn [fst] in HP.
    cbn [eval]. rewrite E. cbn [rbind].
    destruct (reduce_data c k G d u (plain_kw (Some (Some axes)) keep) axes red R) as (d' & p' & -> & HP' & Hp'); auto; [discriminate|].
    cbn [rbind item nth_error]. exists (InDist d'). split; [reflexivity|]. exists d'. split; [reflexivity|]. cbn [fst k_keepdims plain_kw] in *.
    assert (p' = p); [|now subst]. apply (proj1 (NoDup_nth_error (if keep then seq 0 (length (shp G)) else kept (length (shp G)) red))).
    + destruct keep; [apply seq_NoDup|]. apply NoDup_filter, seq_NoDup.
    + apply nth_error_Some. congruence.
    + congruence.
  - inversion HD as [| | |? ? ? G k a R HDe HN Na HA| |]; subst. destruct (IH _ HDe) as (i & E & (d & -> & HP)). cbn [fst] in HP.
    cbn [eval]. rewrite E. cbn [rbind].
    destruct (accumulate_data c k G d u (plain_kw (Some (Some [z])) false) z a R) as (d' & -> & HP'); auto; [discriminate|].
    cbn [rbind item nth_error]. exists (InDist d'). split; [reflexivity|]. exists d'. auto.
  - inversion HD as [| | | |? ? G k perm R p HDe HT HPm HTr Hp|]; subst. destruct (IH _ HDe) as (i & E & (d & -> & HP)). cbn [fst] in HP.
    cbn [eval]. rewrite E. cbn [rbind]. destruct (transpose_data c k G d a perm R Hc HP HT HPm HTr) as (d' & p' & -> & HP' & Hp').
    cbn [rbind]. exists (InDist d'). split; [reflexivity|]. exists d'. split; [reflexivity|]. cbn [fst].
    assert (p' = p); [|now subst]. apply (proj1 (NoDup_nth_error perm)).
    + apply (Permutation_NoDup (Permutation_sym HPm)), seq_NoDup.
    + apply nth_error_Some. congruence.
    + congruence.
  - inversion HD as [| | | | |? ? G k R p HDe HO Hin HX Hp]; subst. destruct (IH _ HDe) as (i & E & (d & -> & HP)). cbn [fst] in HP.
    cbn [eval]. rewrite E. cbn [rbind].
    assert (EW : entries_whole k sl (length (shp G)) = entries sl (length (shp G))).
    { unfold entries_whole, entries. destruct (sanitize_form _ _ HO) as (sl' & _ & _ & _ & Hit). rewrite Hit in *.
      rewrite map_snd_whole; [reflexivity|apply items_somes, seq_NoDup|exact Hin]. }
    destruct (getitem_dist c k G d sl R (ISl full_slice) Hc HP HO Hin (or_introl eq_refl)) as (d' & p' & -> & HP' & Hp'); [now rewrite EW|].
    cbn [rbind]. exists (InDist d'). split; [reflexivity|]. exists d'. split; [reflexivity|]. cbn [fst].
    assert (p' = p); [|now subst].
    assert (N : forall its q q' y, NoDup (map fst (filter (fun it : option nat * ient => match fst it with Some _ => true | None => false end) its)) ->
       nth_error (map fst (filter (fun it : option nat * ient => match snd it with IInt _ => false | _ => true end) its)) q = Some (Some y) ->
       nth_error (map fst (filter (fun it : option nat * ient => match snd it with IInt _ => false | _ => true end) its)) q' = Some (Some y) -> q = q').
    { clear. induction its as [|(x, f) its IH]; intros q q' y N H H'; [destruct q; discriminate|].
      assert (N' : NoDup (map fst (filter (fun it : option nat * ient => match fst it with Some _ => true | None => false end) its))).
      { destruct x; cbn [filter fst map] in N; [now apply NoDup_cons_iff in N|exact N]. }
      assert (NI : x = Some y -> forall q, nth_error (map fst (filter (fun it : option nat * ient => match snd it with IInt _ => false | _ => true end) its)) q <> Some (Some y)).
      { intros -> q0 Hq. cbn [filter fst map] in N. apply NoDup_cons_iff in N. destruct N as [N _]. apply N.
        apply nth_error_In, in_map_iff in Hq. destruct Hq as ((z, g) & Hz & Hq). cbn [fst] in Hz. subst z. apply filter_In in Hq.
        apply in_map_iff. exists (Some y, g). split; [reflexivity|]. apply filter_In. split; [apply Hq|reflexivity]. }
      cbn [filter snd] in H, H'. destruct f; cbn [map fst] in H, H'; [| now apply (IH q q' y)| |];
        (destruct q as [|q], q' as [|q']; cbn [nth_error] in H, H'; [reflexivity| | |f_equal; now apply (IH q q' y)]);
        exfalso; (eapply NI; [|eassumption]); congruence. }
    unfold np_out in *. destruct (sanitize_form _ _ HO) as (sl' & _ & _ & _ & Hit). rewrite Hit in *.
    eapply N; [apply items_somes, seq_NoDup|exact Hp'|exact Hp].
Qed.

(** ** What is refused *)
Lemma reduce_refused : forall c k (G : nd A) d u (kw : kwargs A) axes red,
  Part c k G d -> plain_call kw -> k_axis kw = Some (Some axes) ->
  Forall2 (AxisName (length (shp G))) axes red -> In k red ->
  array_ufunc u MReduce [InDist d] kw = Err AxisException.
Proof.
  intros c k G d u kw axes red HP Hw Ha HN HI. pose proof HP as ((K & S1 & S2) & E1 & E2 & E3 & E4 & E5).
  assert (LD : length (shp (d_data d)) = length (shp G)) by (rewrite S1; apply length_set_nth).
  unfold array_ufunc. cbn [common_comm validate]. rewrite E5. cbn [rbind]. rewrite Ha, LD, E1.
  rewrite (proj1 (reduce_ok (length (shp G)) k axes red (k_keepdims kw) K HN) HI). cbn [rbind].
  unfold plain_call in Hw. destruct (k_where kw) as [[]|]; congruence.
Qed.
Lemma accumulate_refused : forall c k (G : nd A) d u (kw : kwargs A),
  Part c k G d -> plain_call kw -> k_axis kw = Some (Some [Z.of_nat k]) ->
  array_ufunc u MAccumulate [InDist d] kw = Err AxisException.
Proof.
  intros c k G d u kw HP Hw Ha. pose proof HP as (_ & E1 & E2 & E3 & E4 & E5).
  unfold array_ufunc. cbn [common_comm validate]. rewrite E5. cbn [rbind]. rewrite Ha, E1. unfold ufunc_accumulate. rewrite Z.eqb_refl. cbn [rbind].
  unfold plain_call in Hw. destruct (k_where kw) as [[]|]; congruence.
Qed.
Lemma no_comm : forall u m (inputs : list (input A)) kw, m <> MOther -> plain_call kw ->
  (forall d, In (InDist d) inputs -> d_comm d = None) -> array_ufunc u m inputs kw = Err RuntimeError.
Proof.
  intros u m inputs kw Hm Hw H.
  assert (E : common_comm None inputs = Ok None).
  { clear -H. induction inputs as [|[d|a|x] l IH]; cbn [common_comm]; [reflexivity| | |].
    - rewrite (H d) by now left. apply IH. intros; apply H. now right.
    - apply IH. intros; apply H. now right.
    - apply IH. intros; apply H. now right. }
  unfold array_ufunc. rewrite E. cbn [rbind]. unfold plain_call in Hw. destruct m; try congruence; destruct (k_where kw) as [[]|]; congruence.
Qed.
Lemma unsupported : forall u m (inputs : list (input A)) kw, m = MOther \/ k_where kw = Some WOther ->
  array_ufunc u m inputs kw = Err UnsupportedOperation.
Proof. intros u m inputs kw [-> | H]; unfold array_ufunc; [reflexivity|]. rewrite H. destruct m; reflexivity. Qed.
(** Not all arrays over one communicator. *)
Lemma mixed_comms : forall u m (inputs : list (input A)) kw c1 c2 d1 d2 rest, m <> MOther -> plain_call kw ->
  inputs = InDist d1 :: rest -> In (InDist d2) rest -> d_comm d1 = Some c1 -> d_comm d2 = Some c2 -> c_id c1 <> c_id c2 ->
  array_ufunc u m inputs kw = Err ValueError.
Proof.
  intros u m inputs kw c1 c2 d1 d2 rest Hm Hw -> Hin E1 E2 Hne.
  assert (E : common_comm None (InDist d1 :: rest) = Err ValueError).
  { cbn [common_comm]. rewrite E1. clear -Hin E2 Hne. induction rest as [|i l IH]; [contradiction|]. destruct Hin as [->|Hin].
    - cbn [common_comm]. rewrite E2. cbn [eq_comm]. apply Nat.eqb_neq in Hne. rewrite Hne. reflexivity.
    - destruct i as [d|a|x]; cbn [common_comm]; auto. destruct (eq_comm c1 (d_comm d)); [auto|reflexivity]. }
  unfold array_ufunc. rewrite E. cbn [rbind]. unfold plain_call in Hw. destruct m; try congruence; destruct (k_where kw) as [[]|]; congruence.
Qed.
End WithA.
