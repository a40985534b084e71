(** C38-C40, C89, C90: reading configurations. *)
From Coq Require Import String.
From Coq Require Import List Ascii Bool Arith ZArith QArith Lia.
From Verif Require Import PyBase PyStr MemModel MemProofs2 AttrProofs CopyProofs JsonProofs CfgModel CfgSpec CfgProofs CfgProofs2.
Import ListNotations.
Open Scope list_scope.
Open Scope nat_scope.

(** * Classes for the examples *)
Definition to_int (v : pyv) : res pyv :=
  match v with VInt z => Ok (VInt z) | VBool b => Ok (VInt (if b then 1 else 0)) | VStr _ => Err ValueError | _ => Err TypeError end.
Definition to_text (v : pyv) : res pyv := match v with VStr s => Ok (VStr s) | _ => Ok (VStr (s_ "text")) end.
Definition ex_heap : heap :=
  [ new_prop (VStr (s_ "Bill")) (Some to_text) None;
    new_prop (VInt 26) (Some to_int) (Some (s_ "ageinyears"));
    new_prop (VStr (s_ "Molly")) (Some to_text) None ].
(** PersonWithPet, Person, object *)
Definition ex_mro : list cls :=
  [ [(s_ "petname", EProp 2)]; [(s_ "name", EProp 0); (s_ "doc", EOther); (s_ "age", EProp 1)]; [] ].
Definition ex_config : dict :=
  [(s_ "name", VStr (s_ "Richard")); (s_ "ageinyears", VInt 40); (s_ "other", VNone)].

Ltac decl H :=
  destruct H as (?c & ?Hn & ?Hin);
  repeat match goal with
         | H : nth_error _ ?n = Some _ |- _ => destruct n as [|n]; cbn in H; [injection H as <-|]
         | H : nth_error [] ?n = Some _ |- _ => destruct n; discriminate
         | H : None = Some _ |- _ => discriminate
         end;
  cbn in *;
  repeat match goal with
         | H : _ \/ _ |- _ => destruct H
         | H : False |- _ => destruct H
         | H : (_, _) = (_, _) |- _ => first [discriminate H | injection H; clear H; intros; subst]
         end.
Lemma ex_ok : well_formed ex_mro ex_heap /\ remembers ex_mro ex_heap.
Proof.
  split; [split; [|split]|].
  - intros c H. cbn in H. repeat destruct H as [<-|H]; try destruct H; cbn;
      repeat constructor; cbn; intuition discriminate.
  - intros n x id H. decl H; lia.
  - intros n x id n' x' H H'. decl H; decl H'; auto; discriminate.
  - intros n x id H. left. decl H; reflexivity.
Qed.

(** * C38: reading a configuration *)
(** When it succeeds, the property [x] declared as [id] has the converted
    value of its key, if that is given; the converted default if not (and the
    attribute was not set before); and nothing else changes. *)
Theorem C38_values : forall mro config cmp ud h d h' d', well_formed mro h -> remembers mro h ->
  no_redeclaration mro -> read_config mro config cmp ud h d = (h', d', None) ->
  (forall n x id v, in_force mro n x id -> dget (key_of h x id) config = Some v ->
     exists v', p_type (pget h id) v = Ok v' /\ snd (getattr mro x h' d') = Ok v') /\
  (forall n x id, in_force mro n x id -> dget (key_of h x id) config = None -> dget x d = None ->
     snd (getattr mro x h' d') = match p_default (pget h id) with VNone => Ok VNone | v => p_type (pget h id) v end) /\
  (forall x, (forall n id, declared mro n x id -> ~ in_config config (key_of h x id)) -> dget x d' = dget x d).
Proof.
  intros mro config cmp ud h d h' d' W R NR H.
  pose proof (ok_intro mro h W R) as O.
  destruct (read_config_ok mro config cmp ud h d O) as (h1 & O1 & E1 & EQ). rewrite EQ in H.
  destruct (apply_all h (decls mro) config d) as [d1 [e|]] eqn:EA; [discriminate|].
  injection H as <- <- _.
  destruct (apply_value _ _ _ _ _ EA) as (A & B & C).
  assert (G : forall n x id, in_force mro n x id ->
    snd (getattr mro x h1 d1) = match dget x d1 with Some v => Ok v | None =>
       match p_default (pget h id) with VNone => Ok VNone | v => p_type (pget h id) v end end).
  { intros n x id F. unfold getattr. rewrite (in_force_lookup mro n x id (proj1 W) F).
    assert (Hin : In (x, id) (decls mro)) by (apply decls_in; exists n; apply F).
    unfold prop_get. destruct (set_propname_ok mro h1 x id O1 Hin) as (O2 & E2 & N2 & _).
    cbn [snd]. rewrite N2. destruct (E1 x id Hin) as (T1 & D1 & _), (E2 x id Hin) as (T2 & D2 & _).
    now rewrite <- D2, <- D1, <- T2, <- T1. }
  split; [|split].
  - intros n x id v F Hv. assert (Hin : In (x, id) (decls mro)) by (apply decls_in; exists n; apply F).
    destruct (A x id Hin v Hv) as [v' Hv']. exists v'. split; auto.
    rewrite (G n x id F). destruct (in_split _ _ Hin) as (a & b & Es).
    rewrite (C a x id b v v' Es Hv Hv'); auto.
    intros id' Hid' _. destruct (decls_split _ _ _ _ _ _ _ Es Hid') as (n1 & n2 & D1 & D2 & _).
    assert (n1 = n2) by (eapply NR; eauto). subst n2.
    destruct D1 as (c1 & Hc1 & Hi1), D2 as (c2 & Hc2 & Hi2). rewrite Hc1 in Hc2. injection Hc2 as <-.
    assert (id = id').
    { assert (N1 := proj1 W c1 (nth_error_In _ _ Hc1)).
      pose proof (dget_nodup _ _ _ _ N1 Hi1). pose proof (dget_nodup _ _ _ _ N1 Hi2). congruence. }
    subst id'. destruct O as [ND _]. rewrite Es, map_app in ND. cbn in ND. apply NoDup_remove_2 in ND.
    apply ND. apply in_or_app. right. apply in_map_iff. exists (x, id). auto.
  - intros n x id F Hk Hd. rewrite (G n x id F).
    rewrite B, Hd; auto. intros id' Hid' [v Hv]. apply decls_in in Hid' as [m Hm].
    assert (n = m) by (eapply NR; [apply F|eauto]). subst m.
    destruct F as [(c1 & Hc1 & Hi1) _], Hm as (c2 & Hc2 & Hi2). rewrite Hc1 in Hc2. injection Hc2 as <-.
    assert (N1 := proj1 W c1 (nth_error_In _ _ Hc1)).
    pose proof (dget_nodup _ _ _ _ N1 Hi1). pose proof (dget_nodup _ _ _ _ N1 Hi2). congruence.
  - intros x Hx. apply B. intros id Hid. apply decls_in in Hid as [n Hn]. eauto.
Qed.
Print Assumptions C38_values.

(** It succeeds exactly when all given values convert and the keys are as
    asked for.  (An empty list as [compare_keys] is left out here.) *)
Theorem C38_success : forall mro config cmp ud h d, well_formed mro h -> remembers mro h -> cmp <> CList [] ->
  (snd (read_config mro config cmp ud h d) = None <->
   (forall n x id v, declared mro n x id -> dget (key_of h x id) config = Some v ->
      exists v', p_type (pget h id) v = Ok v') /\
   (forall k, cmp <> CFalse -> in_config config k ->
      (exists n x id, declared mro n x id /\ key_of h x id = k) \/ exists l, cmp = CList l /\ In k l) /\
   (ud = false -> forall n x id, declared mro n x id -> in_config config (key_of h x id))).
Proof.
  intros mro config cmp ud h d W R Hc. pose proof (ok_intro mro h W R) as O.
  destruct (read_config_ok mro config cmp ud h d O) as (h1 & O1 & E1 & EQ). rewrite EQ. clear EQ.
  assert (KL : forall k, In k (key_list h mro) <-> exists n x id, declared mro n x id /\ key_of h x id = k).
  { intros k. unfold key_list. rewrite in_map_iff. split.
    - intros ([x id] & <- & Hin). apply decls_in in Hin as [n Hn]. eauto.
    - intros (n & x & id & Hd & <-). exists (x, id). split; auto. apply decls_in; eauto. }
  assert (IC : forall k, in_config config k <-> In k (map fst config)) by (intros k; symmetry; apply dget_in).
  pose proof (apply_success h config (decls mro) d) as AS.
  destruct (apply_all h (decls mro) config d) as [d1 e1]. cbn [snd] in AS.
  assert (AS' : e1 = None <-> forall n x id v, declared mro n x id -> dget (key_of h x id) config = Some v ->
      exists v', p_type (pget h id) v = Ok v').
  { rewrite AS. split; intros H.
    - intros n x id v Hd. apply H. apply decls_in; eauto.
    - intros x id v Hin. apply decls_in in Hin as [n Hn]. eauto. }
  clear AS.
  assert (KE : key_error cmp ud config (key_list h mro) = false <->
    (forall k, cmp <> CFalse -> in_config config k ->
      (exists n x id, declared mro n x id /\ key_of h x id = k) \/ exists l, cmp = CList l /\ In k l) /\
    (ud = false -> forall n x id, declared mro n x id -> in_config config (key_of h x id))).
  { unfold key_error. rewrite orb_false_iff.
    assert (X : negb ud && missing config (key_list h mro) = false <->
      (ud = false -> forall n x id, declared mro n x id -> in_config config (key_of h x id))).
    { destruct ud; cbn [negb andb]; [split; [discriminate|auto]|]. rewrite missing_iff. split.
      - intros H _ n x id Hd. apply IC, H, KL. eauto.
      - intros H k Hk. apply KL in Hk as (n & x & id & Hd & <-). apply IC. eauto. }
    rewrite X. apply and_iff_compat_r.
    destruct cmp as [| |[|a l]]; [split; congruence| |congruence|].
    - rewrite unused_iff. split.
      + intros H k _ Hk. left. apply KL, H, IC. auto.
      + intros H k Hk. apply IC in Hk. destruct (H k) as [?|(l & ? & _)]; auto; [discriminate|now apply KL|discriminate].
    - rewrite unused_iff. split.
      + intros H k _ Hk. apply IC, H in Hk. apply in_app_or in Hk as [Hk|Hk]; [left; now apply KL|right; eauto].
      + intros H k Hk. apply in_or_app. apply IC in Hk. destruct (H k) as [?|(m & Em & ?)]; auto; [discriminate|left; now apply KL|].
        injection Em as <-. now right. }
  rewrite <- AS', <- KE. destruct e1 as [e|]; cbn [snd].
  - split; [discriminate|]. intros [? _]; discriminate.
  - destruct (key_error cmp ud config (key_list h mro)); split; try discriminate; auto.
    intros [_ ?]; discriminate.
Qed.
Print Assumptions C38_success.

(** Otherwise the error is that of a conversion, with [TypeError] turned into
    a configuration error, or a configuration error about the keys. *)
Theorem C38_errors : forall mro config cmp ud h d h' d' e, well_formed mro h -> remembers mro h ->
  read_config mro config cmp ud h d = (h', d', Some e) ->
  e = CaputConfigError \/
  exists n x id v, declared mro n x id /\ dget (key_of h x id) config = Some v /\
    p_type (pget h id) v = Err e /\ e <> TypeError.
Proof.
  intros mro config cmp ud h d h' d' e W R H. pose proof (ok_intro mro h W R) as O.
  destruct (read_config_ok mro config cmp ud h d O) as (h1 & O1 & E1 & EQ). rewrite EQ in H.
  destruct (apply_all h (decls mro) config d) as [d1 [e1|]] eqn:EA.
  - injection H as _ _ <-. apply apply_error in EA as (a & x & id & b & v & e0 & El & Hv & Ht & -> & _).
    assert (Hin : In (x, id) (decls mro)) by (rewrite El; apply in_elt). apply decls_in in Hin as [n Hn].
    destruct e0; cbn; auto; right; exists n, x, id, v; repeat split; auto; discriminate.
  - destruct (key_error _ _ _ _); [|discriminate]. injection H as _ _ <-. now left.
Qed.
Print Assumptions C38_errors.

(** Assigning to a property converts, too. *)
Theorem C38_assignment : forall mro n x id v h d, well_formed mro h -> remembers mro h -> in_force mro n x id ->
  match prop_set mro id v h d with
  | (h', d', None) => exists v', p_type (pget h id) v = Ok v' /\ snd (getattr mro x h' d') = Ok v' /\
                        forall y, y <> x -> dget y d' = dget y d
  | (h', d', Some e) => p_type (pget h id) v = Err e /\ d' = d
  end.
Proof.
  intros mro n x id v h d W R F. pose proof (ok_intro mro h W R) as O.
  assert (Hin : In (x, id) (decls mro)) by (apply decls_in; exists n; apply F).
  destruct (set_propname_ok mro h x id O Hin) as (O2 & E2 & N2 & _).
  unfold prop_set. rewrite N2. destruct (E2 x id Hin) as (T2 & _ & _). rewrite <- T2.
  destruct (p_type (pget h id) v) as [v'|e]; [|auto].
  exists v'. split; auto. split; [|intros y Hy; now apply dget_dput_other].
  unfold getattr. rewrite (in_force_lookup mro n x id (proj1 W) F). unfold prop_get.
  destruct (set_propname_ok mro _ x id O2 Hin) as (_ & _ & N3 & _). cbn [snd]. rewrite N3.
  now rewrite dget_dput_same.
Qed.
Print Assumptions C38_assignment.

Example C38_example :
  (well_formed ex_mro ex_heap /\ remembers ex_mro ex_heap) /\
  (let '(h, d, e) := read_config ex_mro ex_config CFalse true ex_heap [] in
   e = None /\ map (fun x => snd (getattr ex_mro (s_ x) h d)) ["name"; "age"; "petname"; "nothing"]%string =
     [Ok (VStr (s_ "Richard")); Ok (VInt 40); Ok (VStr (s_ "Molly")); Err AttributeError]) /\
  snd (read_config ex_mro ex_config CTrue true ex_heap []) = Some CaputConfigError /\
  snd (read_config ex_mro ex_config (CList [s_ "other"]) true ex_heap []) = None /\
  snd (read_config ex_mro ex_config CFalse false ex_heap []) = Some CaputConfigError /\
  snd (read_config ex_mro [(s_ "ageinyears", VNone)] CFalse true ex_heap []) = Some CaputConfigError /\
  snd (read_config ex_mro [(s_ "ageinyears", VStr (s_ "x"))] CFalse true ex_heap []) = Some ValueError.
Proof. split; [exact ex_ok|]. vm_compute. repeat split; reflexivity. Qed.

(** With an empty list of exceptions, unknown keys are not reported. *)
Theorem C38_empty_list_refuted : exists mro h config, well_formed mro h /\ remembers mro h /\
  (exists k, in_config config k /\ (forall n x id, declared mro n x id -> key_of h x id <> k) /\ ~ In k []) /\
  snd (read_config mro config (CList []) true h []) = None.
Proof.
  exists ex_mro, ex_heap, ex_config. split; [apply ex_ok|]. split; [apply ex_ok|]. split; [|reflexivity].
  exists (s_ "other"). split; [now exists VNone|]. split; [|intros []].
  intros n x id H. decl H; discriminate.
Qed.
Print Assumptions C38_empty_list_refuted.

(** * C39: redeclarations *)
(** The value of an attribute comes from the most derived declaration whose key
    is given. *)
Theorem C39_last_given_wins : forall mro config cmp ud h d h' d' n x id v, well_formed mro h -> remembers mro h ->
  read_config mro config cmp ud h d = (h', d', None) ->
  declared mro n x id -> dget (key_of h x id) config = Some v ->
  (forall m id', declared mro m x id' -> m < n -> ~ in_config config (key_of h x id')) ->
  exists v', p_type (pget h id) v = Ok v' /\ dget x d' = Some v'.
Proof.
  intros mro config cmp ud h d h' d' n x id v W R H Hd Hv Hl.
  pose proof (ok_intro mro h W R) as O.
  destruct (read_config_ok mro config cmp ud h d O) as (h1 & O1 & E1 & EQ). rewrite EQ in H.
  destruct (apply_all h (decls mro) config d) as [d1 [e|]] eqn:EA; [discriminate|].
  injection H as _ <- _. destruct (apply_value _ _ _ _ _ EA) as (A & B & C).
  assert (Hin : In (x, id) (decls mro)) by (apply decls_in; eauto).
  destruct (A x id Hin v Hv) as [v' Hv']. exists v'. split; auto.
  destruct (in_split _ _ Hin) as (a & b & Es). apply (C a x id b v v' Es Hv Hv').
  intros id' Hid'. destruct (decls_split _ _ _ _ _ _ _ Es Hid') as (n1 & n2 & D1 & D2 & Hle).
  destruct (proj2 (proj2 W) _ _ _ _ _ D1 Hd) as [-> _].
  destruct (Nat.eq_dec n2 n) as [->|Hne]; [|apply (Hl n2); auto; lia]. exfalso.
  destruct Hd as (c1 & Hc1 & Hi1), D2 as (c2 & Hc2 & Hi2). rewrite Hc1 in Hc2. injection Hc2 as <-.
  assert (id = id').
  { assert (N1 := proj1 W c1 (nth_error_In _ _ Hc1)).
    pose proof (dget_nodup _ _ _ _ N1 Hi1). pose proof (dget_nodup _ _ _ _ N1 Hi2). congruence. }
  subst id'. destruct O as [ND _]. rewrite Es, map_app in ND. cbn in ND. apply NoDup_remove_2 in ND.
  apply ND. apply in_or_app. right. apply in_map_iff. exists (x, id). auto.
Qed.
Print Assumptions C39_last_given_wins.

(** So the subclass wins if it uses the keys of its parents, provided that
    reading succeeds; the parents' conversions run as well. *)
Theorem C39_override_partial : forall mro config cmp ud h d h' d' n x id, well_formed mro h -> remembers mro h ->
  read_config mro config cmp ud h d = (h', d', None) -> in_force mro n x id -> dget x d = None ->
  (forall m id', declared mro m x id' -> key_of h x id' = key_of h x id) ->
  snd (getattr mro x h' d') =
    match dget (key_of h x id) config with
    | Some v => p_type (pget h id) v
    | None => match p_default (pget h id) with VNone => Ok VNone | v => p_type (pget h id) v end
    end.
Proof.
  intros mro config cmp ud h d h' d' n x id W R H F Hd Hk.
  pose proof (ok_intro mro h W R) as O.
  destruct (read_config_ok mro config cmp ud h d O) as (h1 & O1 & E1 & EQ).
  pose proof H as H0. rewrite EQ in H.
  destruct (apply_all h (decls mro) config d) as [d1 [e|]] eqn:EA; [discriminate|].
  injection H as -> -> _. destruct (apply_value _ _ _ _ _ EA) as (A & B & C).
  assert (Hin : In (x, id) (decls mro)) by (apply decls_in; exists n; apply F).
  unfold getattr. rewrite (in_force_lookup mro n x id (proj1 W) F). unfold prop_get.
  destruct (set_propname_ok mro h' x id O1 Hin) as (O2 & E2 & N2 & _).
  cbn [snd]. rewrite N2. destruct (E1 x id Hin) as (T1 & D1 & _), (E2 x id Hin) as (T2 & D2 & _).
  rewrite <- D2, <- D1, <- T2, <- T1.
  destruct (dget (key_of h x id) config) as [v|] eqn:Ev.
  - destruct (C39_last_given_wins mro config cmp ud h d h' d' n x id v W R H0 (proj1 F) Ev) as (v' & Hv' & ->); auto.
    intros m id' (c & Hc & Hi) Hm. exfalso. apply (proj2 F m c Hm Hc). apply in_map_iff. exists (x, EProp id'). auto.
  - rewrite B, Hd; auto. intros id' Hid' [v Hv]. apply decls_in in Hid' as [m Hm].
    rewrite (Hk m id' Hm) in Hv. congruence.
Qed.
Print Assumptions C39_override_partial.

(** A subclass that gives the attribute another key: the key of the parent
    still sets it, with the conversion of the parent. *)
Definition over_mro : list cls := [[(s_ "x", EProp 1)]; [(s_ "x", EProp 0)]].
Definition over_heap (k1 : option str) : heap :=
  [new_prop (VInt 1) (Some to_int) (Some (s_ "a")); new_prop (VStr (s_ "no")) (Some to_text) k1].
Lemma over_ok : forall k1, well_formed over_mro (over_heap k1) /\ remembers over_mro (over_heap k1).
Proof.
  intros k1. split; [split; [|split]|].
  - intros c H. cbn in H. repeat destruct H as [<-|H]; try destruct H; cbn; repeat constructor; auto.
  - intros n x id H. decl H; lia.
  - intros n x id n' x' H H'. decl H; decl H'; auto; discriminate.
  - intros n x id H. left. decl H; reflexivity.
Qed.
Theorem C39_key_refuted : exists mro h config, well_formed mro h /\ remembers mro h /\
  exists x id, in_force mro 0 x id /\ dget (key_of h x id) config = None /\
  let '(h', d', e) := read_config mro config CFalse true h [] in
  e = None /\ snd (getattr mro x h' d') = Ok (VInt 7) /\ p_type (pget h id) (p_default (pget h id)) = Ok (VStr (s_ "no")).
Proof.
  exists over_mro, (over_heap (Some (s_ "b"))), [(s_ "a", VInt 7)].
  split; [apply over_ok|]. split; [apply over_ok|]. exists (s_ "x"), 1.
  split; [split; [eexists; split; [reflexivity|now left]|intros; lia]|]. vm_compute. auto.
Qed.
Print Assumptions C39_key_refuted.
(** A subclass that widens the type: values that only the subclass accepts
    still fail, in the conversion of the parent. *)
Theorem C39_type_refuted : exists mro h config, well_formed mro h /\ remembers mro h /\
  exists x id v, in_force mro 0 x id /\ dget (key_of h x id) config = Some v /\ p_type (pget h id) v = Ok v /\
  snd (read_config mro config CFalse true h []) = Some ValueError.
Proof.
  exists over_mro, (over_heap (Some (s_ "a"))), [(s_ "a", VStr (s_ "text"))].
  split; [apply over_ok|]. split; [apply over_ok|]. exists (s_ "x"), 1, (VStr (s_ "text")).
  split; [split; [eexists; split; [reflexivity|now left]|intros; lia]|]. vm_compute. auto.
Qed.
Print Assumptions C39_type_refuted.

Example C39_example :
  let '(h, d, e) := read_config over_mro [(s_ "a", VInt 7)] CTrue false (over_heap (Some (s_ "a"))) [] in
  e = None /\ snd (getattr over_mro (s_ "x") h d) = Ok (VStr (s_ "text")).
Proof. vm_compute. auto. Qed.

(** * C40: validated types *)
Theorem C40_float_in_range_partial : forall parse start stop v, start <> FNan -> stop <> FNan ->
  match to_float parse v with
  | Ok FNan => True
  | Ok f => (flt_le start f /\ flt_le f stop /\ float_in_range parse start stop v = Ok (VFloat f)) \/
            (~ (flt_le start f /\ flt_le f stop) /\ float_in_range parse start stop v = Err CaputConfigError)
  | Err e => float_in_range parse start stop v = Err e
  end.
Proof.
  intros parse start stop v Hs He. unfold float_in_range. destruct (to_float parse v) as [f|e]; [|reflexivity].
  cbn [rbind]. destruct f as [|n|q]; [exact I| |].
  - destruct (flt_lt (FInf n) start) eqn:E1; cbn [orb].
    + right. split; auto. intros [H _]. apply flt_lt_le in H; congruence.
    + apply flt_lt_le in E1; try discriminate; auto. destruct (flt_lt stop (FInf n)) eqn:E2.
      * right. split; auto. intros [_ H]. apply flt_lt_le in H; congruence.
      * apply flt_lt_le in E2; try discriminate; auto.
  - destruct (flt_lt (FFin q) start) eqn:E1; cbn [orb].
    + right. split; auto. intros [H _]. apply flt_lt_le in H; congruence.
    + apply flt_lt_le in E1; try discriminate; auto. destruct (flt_lt stop (FFin q)) eqn:E2.
      * right. split; auto. intros [_ H]. apply flt_lt_le in H; congruence.
      * apply flt_lt_le in E2; try discriminate; auto.
Qed.
Print Assumptions C40_float_in_range_partial.

(** NaN is in every range; a text that is no number is a [ValueError], also
    when read from a configuration. *)
Theorem C40_nan_refuted : exists parse start stop,
  float_in_range parse start stop (VFloat FNan) = Ok (VFloat FNan) /\ ~ flt_le start FNan /\
  exists mro h config, well_formed mro h /\ remembers mro h /\
    p_type (pget h 0) = float_in_range parse start stop /\
    snd (read_config mro config CFalse true h []) = Some ValueError.
Proof.
  exists (fun _ => None), (FFin 0), (FFin 360). split; [reflexivity|]. split; [intros []|].
  exists [[(s_ "x", EProp 0)]], [new_prop VNone (Some (float_in_range (fun _ => None) (FFin 0) (FFin 360))) None], [(s_ "x", VStr (s_ "east"))].
  split; [split; [|split]|].
  - intros c [<-|[]]. repeat constructor; auto.
  - intros n x id H. decl H; lia.
  - intros n x id n' x' H H'. decl H; decl H'; auto.
  - split; [|split; reflexivity]. intros n x id H. left. decl H; reflexivity.
Qed.
Print Assumptions C40_nan_refuted.

Theorem C40_enum : forall options v,
  ((exists o, In o options /\ same v o) /\ enum options v = Ok v) \/
  (~ (exists o, In o options /\ same v o) /\ enum options v = Err CaputConfigError).
Proof.
  intros options v. unfold enum. destruct (existsb (py_eq v) options) eqn:E; cbn [negb].
  - left. split; auto. now apply in_options.
  - right. split; auto. intros H. apply in_options in H. congruence.
Qed.
Print Assumptions C40_enum.
Theorem C40_enum_default : forall options v,
  match enum_decl options v with
  | Ok p => p_default p = v /\ p_type p = enum options /\ (v = VNone \/ enum options v = Ok v)
  | Err e => e = ValueError /\ v <> VNone /\ enum options v = Err CaputConfigError
  end.
Proof.
  intros options v. unfold enum_decl, enum. destruct (is_none v) eqn:En; cbn [negb andb].
  - destruct v; try discriminate. cbn. auto.
  - destruct (existsb (py_eq v) options); cbn [negb].
    + cbn. auto.
    + split; auto. split; auto. intros ->. discriminate.
Qed.
Print Assumptions C40_enum_default.

Theorem C40_list_type_partial : forall types len maxlen v, len <> Some 0%Z -> maxlen <> Some 0%Z ->
  let good := exists l, (v = VList l \/ v = VTuple l) /\
    (types <> [] -> forall x, In x l -> exists t, In t types /\ isinstance x t = true) /\
    (forall k, len = Some k -> Z.of_nat (length l) = k) /\
    (forall k, maxlen = Some k -> (Z.of_nat (length l) <= k)%Z) in
  (good /\ list_type types len maxlen v = Ok v) \/ (~ good /\ list_type types len maxlen v = Err CaputConfigError).
Proof.
  intros types len maxlen v Hl Hm good. subst good.
  assert (NL : (forall l, v <> VList l /\ v <> VTuple l) \/ exists l, v = VList l \/ v = VTuple l).
  { destruct v; try (left; split; discriminate); right; eauto. }
  destruct NL as [NL|[l NL]].
  - right. split; [|destruct v as [| | | | |l|l|]; try reflexivity; destruct (NL l); congruence].
    intros (l & [E|E] & _); destruct (NL l); congruence.
  - set (b1 := match types with [] => false | _ => existsb (fun x => negb (existsb (isinstance x) types)) l end).
    set (b2 := match len with Some k => negb (k =? 0)%Z && negb (Z.of_nat (length l) =? k)%Z | None => false end).
    set (b3 := match maxlen with Some k => negb (k =? 0)%Z && (k <? Z.of_nat (length l))%Z | None => false end).
    assert (EQ : list_type types len maxlen v =
      if b1 then Err CaputConfigError else if b2 then Err CaputConfigError else if b3 then Err CaputConfigError else Ok v).
    { destruct NL as [->| ->]; reflexivity. }
    rewrite EQ. clear EQ.
    assert (B1 : b1 = false <-> (types <> [] -> forall x, In x l -> exists t, In t types /\ isinstance x t = true)).
    { subst b1. destruct types as [|t ts]; [split; [congruence|auto]|].
      rewrite (items_ok (t :: ts) l) by discriminate. split; [auto|]. intros H; apply H; discriminate. }
    assert (B2 : b2 = false <-> forall k, len = Some k -> Z.of_nat (length l) = k).
    { subst b2. destruct len as [k|]; [|split; [discriminate|auto]].
      destruct (k =? 0)%Z eqn:E0; [apply Z.eqb_eq in E0; subst; congruence|]. cbn [negb andb].
      destruct (Z.of_nat (length l) =? k)%Z eqn:E1; cbn [negb].
      - apply Z.eqb_eq in E1. split; auto. intros _ k' Hk'. congruence.
      - apply Z.eqb_neq in E1. split; [discriminate|]. intros H. exfalso. auto. }
    assert (B3 : b3 = false <-> forall k, maxlen = Some k -> (Z.of_nat (length l) <= k)%Z).
    { subst b3. destruct maxlen as [k|]; [|split; [discriminate|auto]].
      destruct (k =? 0)%Z eqn:E0; [apply Z.eqb_eq in E0; subst; congruence|]. cbn [negb andb].
      rewrite Z.ltb_ge. split; [intros H k' Hk'; injection Hk' as <-; auto|auto]. }
    assert (U : forall l', (v = VList l' \/ v = VTuple l') -> l' = l) by (intros l' [E|E]; destruct NL; congruence).
    destruct b1; [|destruct b2; [|destruct b3]].
    + right. split; auto. intros (l' & E & G1 & _). rewrite (U l' E) in G1. apply B1 in G1. discriminate.
    + right. split; auto. intros (l' & E & _ & G1 & _). rewrite (U l' E) in G1. apply B2 in G1. discriminate.
    + right. split; auto. intros (l' & E & _ & _ & G1). rewrite (U l' E) in G1. apply B3 in G1. discriminate.
    + left. split; auto. exists l. split; auto. split; [now apply B1|]. split; [now apply B2|now apply B3].
Qed.
Print Assumptions C40_list_type_partial.

(** Limits of zero are ignored. *)
Theorem C40_zero_length_refuted : exists v, v = VList [VInt 1; VInt 2] /\
  list_type [TInt] (Some 0%Z) None v = Ok v /\ list_type [TInt] None (Some 0%Z) v = Ok v.
Proof. eexists. repeat split; reflexivity. Qed.
Print Assumptions C40_zero_length_refuted.

(** A default that is an empty list is not checked at the declaration; reading
    the attribute then fails.  The same for any default of a range. *)
Theorem C40_default_refuted : exists p mro, list_decl [] (Some 2%Z) None (VList []) = Ok p /\
  list_type [] (Some 2%Z) None (VList []) = Err CaputConfigError /\
  well_formed mro [p] /\ remembers mro [p] /\ snd (getattr mro (s_ "x") [p] []) = Err CaputConfigError.
Proof.
  eexists. exists [[(s_ "x", EProp 0)]]. split; [reflexivity|]. split; [reflexivity|].
  split; [split; [|split]|split].
  - intros c [<-|[]]. repeat constructor; auto.
  - intros n x id H. decl H; cbn; lia.
  - intros n x id n' x' H H'. decl H; decl H'; auto.
  - intros n x id H. left. decl H; reflexivity.
  - reflexivity.
Qed.
Print Assumptions C40_default_refuted.
Theorem C40_list_default_partial : forall types len maxlen v, truthy v = true ->
  match list_decl types len maxlen v with
  | Ok p => p_default p = v /\ p_type p = list_type types len maxlen /\ list_type types len maxlen v = Ok v
  | Err e => e = ValueError /\ list_type types len maxlen v = Err CaputConfigError
  end.
Proof.
  intros types len maxlen v Ht. unfold list_decl. rewrite Ht.
  destruct (list_type types len maxlen v) as [v'|e] eqn:E.
  - cbn. repeat split; auto. rewrite <- E. unfold list_type in E |- *. destruct v; try discriminate;
      repeat match type of E with (if ?b then _ else _) = _ => destruct b; [discriminate|] end; congruence.
  - unfold list_type in E. destruct v; try (injection E as <-; auto; fail);
      repeat match type of E with (if ?b then _ else _) = _ => destruct b; [injection E as <-; auto|] end; discriminate.
Qed.
Print Assumptions C40_list_default_partial.

Example C40_example :
  let f := float_in_range (fun _ => None) (FFin 0) (FFin 360) in
  f (VInt 360) = Ok (VFloat (FFin 360)) /\ f (VFloat (FInf false)) = Err CaputConfigError /\
  f (VFloat (FFin (-1 # 2))) = Err CaputConfigError /\ f VNone = Err TypeError /\
  enum [VStr (s_ "a"); VInt 1] (VBool true) = Ok (VBool true) /\
  enum [VStr (s_ "a"); VInt 1] (VStr (s_ "b")) = Err CaputConfigError /\
  list_type [TInt] (Some 2%Z) None (VTuple [VInt 3; VBool true]) = Ok (VTuple [VInt 3; VBool true]) /\
  list_type [TInt] (Some 2%Z) None (VList [VInt 3; VStr []]) = Err CaputConfigError /\
  list_type [TInt] None (Some 2%Z) (VList [VInt 3; VInt 4; VInt 5]) = Err CaputConfigError /\
  list_type [] None None (VStr (s_ "ab")) = Err CaputConfigError.
Proof. vm_compute. repeat split; reflexivity. Qed.

(** Which types a value has: one each, but truth values are integers too. *)
Theorem C40_types : forall v t, isinstance v t = true <-> match t with
  | TBool => exists b, v = VBool b
  | TInt => (exists z, v = VInt z) \/ exists b, v = VBool b
  | TFloat => exists f, v = VFloat f
  | TStr => exists s, v = VStr s
  | TList => exists l, v = VList l
  | TTuple => exists l, v = VTuple l
  | TDict => exists l, v = VDict l
  end.
Proof.
  intros v t. destruct t; split.
  all: try (intros [x ->]; reflexivity).
  all: try (intros [[x ->]|[x ->]]; reflexivity).
  all: destruct v; intros H; try discriminate H; eauto.
Qed.
Print Assumptions C40_types.

(** * C89: log levels *)
(** Accepted are one level, or a dictionary of levels, in any case of
    letters. *)
Theorem C89_levels : forall v r, (forall l, v = VDict l -> NoDup (map fst l)) ->
  (logging_config v = Ok r <->
   exists ks ls, length ks = length ls /\ Forall (fun s => In (upper s) loglevels) ls /\
     (v = VDict (combine ks (map VStr ls)) \/ exists s, v = VStr s /\ ks = [s_ "root"] /\ ls = [s]) /\
     r = VDict (combine ks (map (fun s => VStr (upper s)) ls))).
Proof.
  assert (K : forall l r, NoDup (map fst l) -> rbind (check_levels l []) (fun r => Ok (VDict r)) = Ok r <->
    exists ls, map snd l = map VStr ls /\ Forall (fun s => In (upper s) loglevels) ls /\
      r = VDict (combine (map fst l) (map (fun s => VStr (upper s)) ls))).
  { intros l r N. destruct (check_levels_ok l [] N) as [A B]. split.
    - intros H. destruct (check_levels l []) as [x|] eqn:E; [|discriminate]. cbn in H. injection H as <-.
      destruct (A x eq_refl) as (ls & E1 & E2 & ->). exists ls. auto.
    - intros (ls & E1 & E2 & ->). rewrite (B ls E1 E2). reflexivity. }
  assert (CF : forall (ks : list str) (vs : list pyv), length ks = length vs -> map fst (combine ks vs) = ks /\ map snd (combine ks vs) = vs).
  { induction ks as [|k ks IH]; intros [|v vs] H; try discriminate; [auto|]. cbn in *.
    destruct (IH vs) as [-> ->]; auto. }
  intros v r N. split.
  - intros H. destruct v as [| | | |s| | |l]; try discriminate.
    + apply K in H; [|repeat constructor; intros []]. destruct H as (ls & E1 & E2 & ->).
      exists [s_ "root"], [s]. destruct ls as [|s' [|]]; try discriminate. injection E1 as <-.
      split; auto. split; auto. split; [right; eauto|auto].
    + apply K in H; [|auto]. destruct H as (ls & E1 & E2 & ->). exists (map fst l), ls.
      split; [rewrite map_length, <- (map_length VStr), <- E1, map_length; auto|]. split; auto. split; auto.
      left. f_equal. rewrite <- E1. clear. induction l as [|[k x] l IH]; [auto|]. cbn. now rewrite <- IH.
  - intros (ks & ls & L & F & [->|(s & -> & -> & ->)] & ->).
    + destruct (CF ks (map VStr ls)) as [C1 C2]; [now rewrite map_length|].
      cbn [logging_config]. apply K; [auto|]. exists ls. rewrite C1, C2. auto.
    + cbn [logging_config]. apply K; [repeat constructor; intros []|]. exists [s]. auto.
Qed.
Print Assumptions C89_levels.

(** Upper case: the small letters become capitals, nothing else changes. *)
Theorem C89_upper : forall c, upper_char c = match find (fun p => Ascii.eqb (fst p) c) letters with Some (_, d) => d | None => c end.
Proof. intros [[] [] [] [] [] [] [] []]; reflexivity. Qed.
Print Assumptions C89_upper.

(** A second time nothing changes. *)
Theorem C89_idempotent : forall v r, (forall l, v = VDict l -> NoDup (map fst l)) ->
  logging_config v = Ok r -> logging_config r = Ok r.
Proof.
  intros v r N H. pose proof H as H0. apply (C89_levels v r N) in H as (ks & ls & L & F & V & ->).
  assert (NK : NoDup ks).
  { destruct V as [->|(s & _ & -> & _)]; [|repeat constructor; intros []].
    specialize (N _ eq_refl). rewrite <- (map_length VStr ls) in L.
    clear -N L. generalize dependent (map VStr ls). intros vs N L.
    replace (map fst (combine ks vs)) with ks in N; [auto|].
    clear N. revert vs L. induction ks as [|k ks IH]; intros [|x vs] L; try discriminate; [auto|]. cbn in *. f_equal; auto. }
  apply C89_levels.
  - intros l E. injection E as <-. rewrite <- (map_length (fun s => VStr (upper s)) ls) in L.
    clear H0. generalize dependent (map (fun s => VStr (upper s)) ls). intros vs L.
    replace (map fst (combine ks vs)) with ks; [auto|].
    clear -L. revert vs L. induction ks as [|k ks IH]; intros [|x vs] L; try discriminate; [auto|]. cbn in *. f_equal; auto.
  - assert (UU : forall s, In (upper s) loglevels -> upper (upper s) = upper s) by (intros; now apply upper_level).
    exists ks, (map upper ls). rewrite map_length, !map_map. split; auto. split; [|split].
    + rewrite Forall_forall in *. intros x Hx. apply in_map_iff in Hx as (s & <- & Hs). rewrite UU; auto.
    + now left.
    + do 2 f_equal. apply map_ext_in. intros s Hs. rewrite Forall_forall in F. now rewrite UU by auto.
Qed.
Print Assumptions C89_idempotent.

(** An unknown level is a [ValueError]; but a value of another kind is an
    [AttributeError] from building the message. *)
Theorem C89_unknown_level : forall v s, v = VStr s -> ~ In (upper s) loglevels -> logging_config v = Err ValueError.
Proof.
  intros v s -> H. cbn [logging_config check_levels].
  destruct (mem (upper s) loglevels) eqn:E; [apply mem_in in E; contradiction|reflexivity].
Qed.
Print Assumptions C89_unknown_level.
Theorem C89_wrong_kind_refuted : exists v, (forall s, v <> VStr s) /\ (forall l, v <> VDict l) /\
  logging_config v = Err AttributeError.
Proof. exists (VInt 3). repeat split; discriminate || reflexivity. Qed.
Print Assumptions C89_wrong_kind_refuted.

Example C89_example :
  logging_config (VStr (s_ "debug")) = Ok (VDict [(s_ "root", VStr (s_ "DEBUG"))]) /\
  logging_config (VDict [(s_ "root", VStr (s_ "Info")); (s_ "a.b", VStr (s_ "ERROR"))]) =
    Ok (VDict [(s_ "root", VStr (s_ "INFO")); (s_ "a.b", VStr (s_ "ERROR"))]) /\
  logging_config (VDict [(s_ "root", VStr (s_ "loud"))]) = Err ValueError.
Proof. vm_compute. repeat split; reflexivity. Qed.

(** * C90: what properties remember *)
(** The result does not depend on what the property objects remember from
    earlier use, and reading leaves them fit for the next use. *)
Theorem C90_memory : forall mro config cmp ud h1 h2 d, well_formed mro h1 -> remembers mro h1 ->
  well_formed mro h2 -> remembers mro h2 -> same_up_to_memory mro h1 h2 ->
  let '(h1', d1, e1) := read_config mro config cmp ud h1 d in
  let '(h2', d2, e2) := read_config mro config cmp ud h2 d in
  d1 = d2 /\ e1 = e2 /\ same_up_to_memory mro h1 h1' /\ remembers mro h1'.
Proof.
  intros mro config cmp ud h1 h2 d W1 R1 W2 R2 S.
  pose proof (ok_intro _ _ W1 R1) as O1. pose proof (ok_intro _ _ W2 R2) as O2. apply eqv_same in S.
  destruct (read_config_ok mro config cmp ud h1 d O1) as (h1' & O1' & E1 & Q1).
  destruct (read_config_ok mro config cmp ud h2 d O2) as (h2' & O2' & E2 & Q2).
  rewrite Q1, Q2. rewrite (apply_eqv mro h1 h2 (decls mro) config d S (fun a H => H)).
  assert (KL : key_list h1 mro = key_list h2 mro).
  { unfold key_list. apply map_ext_in. intros [x id] Hin. apply (S x id Hin). }
  rewrite KL. assert (RM : remembers mro h1').
  { intros n x id Hd. apply (proj2 O1' x id). apply decls_in; eauto. }
  apply eqv_same in E1.
  destruct (apply_all h2 (decls mro) config d) as [d' [e|]]; auto.
Qed.
Print Assumptions C90_memory.

(** An object used under two names, in two classes, is set under the name it
    was first read with. *)
Theorem C90_shared_refuted : exists h mroA mroB config,
  well_formed mroA h /\ remembers mroA h /\ well_formed mroB h /\ remembers mroB h /\
  let '(h', _, _) := read_config mroA [] CFalse true h [] in
  let '(_, d, e) := read_config mroB config CFalse true h' [] in
  let '(_, d0, e0) := read_config mroB config CFalse true h [] in
  dget (s_ "y") d0 = Some (VInt 5) /\ dget (s_ "y") d = None /\ e = None /\ e0 = None.
Proof.
  exists [new_prop VNone None None], [[(s_ "x", EProp 0)]], [[(s_ "y", EProp 0)]], [(s_ "y", VInt 5)].
  assert (G : forall s, well_formed [[(s, EProp 0)]] [new_prop VNone None None] /\
                        remembers [[(s, EProp 0)]] [new_prop VNone None None]).
  { intros s. split; [split; [|split]|].
    - intros c [<-|[]]. repeat constructor; auto.
    - intros n x id H. decl H; cbn; lia.
    - intros n x id n' x' H H'. decl H; decl H'; auto.
    - intros n x id H. left. decl H; reflexivity. }
  split; [apply G|]. split; [apply G|]. split; [apply G|]. split; [apply G|].
  vm_compute. repeat split; reflexivity.
Qed.
Print Assumptions C90_shared_refuted.

Example C90_example :
  let '(h, d, e) := read_config ex_mro ex_config CFalse true ex_heap [] in
  p_name (pget h 0) = Some (s_ "name") /\ p_key (pget h 0) = Some (s_ "name") /\
  snd (fst (read_config ex_mro ex_config CFalse true h [])) = d.
Proof. vm_compute. repeat split; reflexivity. Qed.
