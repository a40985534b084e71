(** Lemmas for reading configurations. *)
From Coq Require Import String.
From Coq Require Import List Ascii Bool Arith ZArith QArith Lia.
From Verif Require Import PyBase PyStr MemModel MemProofs2 AttrProofs CopyProofs CfgModel CfgSpec.
Import ListNotations.
Open Scope list_scope.
Open Scope nat_scope.

(** * Heap cells *)
Lemma pset_length : forall h id p, length (pset h id p) = length h.
Proof. induction h as [|q h IH]; intros [|id] p; cbn; auto. Qed.
Lemma pget_pset_same : forall h id p, id < length h -> pget (pset h id p) id = p.
Proof.
  induction h as [|q h IH]; intros [|id] p H; cbn in *; try lia; auto.
  apply (IH id p). lia.
Qed.
Lemma pget_pset_other : forall h id i p, i <> id -> pget (pset h id p) i = pget h i.
Proof.
  induction h as [|q h IH]; intros [|id] [|i] p H; cbn; auto; try congruence.
  apply (IH id i p). congruence.
Qed.

(** * Declarations in order *)
Definition cprops (c : cls) : list (str * nat) :=
  flat_map (fun (e : str * entry) => match snd e with EProp i => [(fst e, i)] | EOther => [] end) c.

Lemma cprops_in : forall c x id, In (x, id) (cprops c) <-> In (x, EProp id) c.
Proof.
  intros c x id. unfold cprops. rewrite in_flat_map. split.
  - intros ([y [i|]] & Hin & H); cbn in H; [destruct H as [H|[]]; injection H as -> ->; auto|destruct H].
  - intros H. eexists. split; [exact H|]. now left.
Qed.
Lemma decls_eq : forall mro, decls mro = flat_map cprops (rev mro).
Proof. reflexivity. Qed.
Lemma decls_in : forall mro x id, In (x, id) (decls mro) <-> exists n, declared mro n x id.
Proof.
  intros mro x id. rewrite decls_eq, in_flat_map. split.
  - intros (c & Hc & H). apply cprops_in in H. apply in_rev in Hc.
    apply In_nth_error in Hc as [n Hn]. exists n, c. auto.
  - intros (n & c & Hn & H). exists c. split; [apply in_rev; rewrite rev_involutive; eapply nth_error_In; eauto|].
    now apply cprops_in.
Qed.

Lemma cprops_nodup : forall c, NoDup (map fst c) ->
  (forall x y id, In (x, EProp id) c -> In (y, EProp id) c -> x = y) -> NoDup (map snd (cprops c)).
Proof.
  induction c as [|[x e] c IH]; intros N U; [constructor|].
  cbn [map fst] in N. apply NoDup_cons_iff in N as [N1 N2].
  assert (IH' : NoDup (map snd (cprops c))).
  { apply IH; auto. intros x' y id Hx Hy. eapply U; right; eauto. }
  destruct e as [id|]; [|exact IH'].
  change (NoDup (id :: map snd (cprops c))). constructor; auto.
  intros H. apply in_map_iff in H as ([y i] & E & H). cbn in E. subst i. apply cprops_in in H.
  assert (x = y) by (eapply U; [now left|right; exact H]). subst y.
  apply N1. apply in_map_iff. exists (x, EProp id). auto.
Qed.

Lemma flat_map_snoc : forall A B (f : A -> list B) l x, flat_map f (l ++ [x]) = flat_map f l ++ f x.
Proof. intros. rewrite flat_map_app. cbn. now rewrite app_nil_r. Qed.

Lemma NoDup_app_intro : forall A (l m : list A), NoDup l -> NoDup m ->
  (forall x, In x l -> ~ In x m) -> NoDup (l ++ m).
Proof.
  induction l as [|a l IH]; intros m Hl Hm H; [auto|]. apply NoDup_cons_iff in Hl as [H1 H2].
  cbn. constructor.
  - intros Hin. apply in_app_or in Hin as [?|Hin]; [auto|]. eapply H; eauto. now left.
  - apply IH; auto. intros x Hx. apply H. now right.
Qed.

Lemma decls_nodup : forall mro,
  (forall c, In c mro -> NoDup (map fst c)) ->
  (forall n x id n' x', declared mro n x id -> declared mro n' x' id -> n = n' /\ x = x') ->
  NoDup (map snd (decls mro)).
Proof.
  induction mro as [|c mro IH]; intros N U; [constructor|].
  rewrite decls_eq. cbn [rev]. rewrite flat_map_snoc, map_app.
  apply NoDup_app_intro.
  - apply IH; [intros; apply N; now right|].
    intros n x id n' x' (c1 & H1 & H2) (c2 & H3 & H4).
    destruct (U (S n) x id (S n') x') as [A B]; [exists c1; auto|exists c2; auto|].
    split; [lia|auto].
  - apply cprops_nodup; [apply N; now left|]. intros x y id Hx Hy.
    apply (U 0 x id 0 y); [exists c; auto|exists c; auto].
  - intros id H1 H2. apply in_map_iff in H1 as ([x i] & E & H1). cbn in E. subst i.
    apply in_map_iff in H2 as ([y i] & E & H2). cbn in E. subst i.
    apply cprops_in in H2. apply (decls_in mro) in H1 as (n & c1 & H1 & H3).
    destruct (U (S n) x id 0 y) as [A _]; [exists c1; auto|exists c; auto|]. lia.
Qed.

(** * The name of a property *)
Definition pick_name (id : nat) (acc : option str) (e : str * nat) : option str :=
  if snd e =? id then Some (fst e) else acc.
Lemma find_name_decls : forall mro id, find_name mro id = fold_left (pick_name id) (decls mro) None.
Proof.
  intros mro id. unfold find_name. rewrite decls_eq. generalize (rev mro) as l.
  generalize (@None str) as acc. intros acc l. revert acc.
  induction l as [|c l IH]; intros acc; [reflexivity|].
  cbn [fold_left flat_map]. rewrite fold_left_app, <- IH. f_equal.
  revert acc. induction c as [|[x e] c IHc]; intros acc; [reflexivity|].
  cbn [fold_left]. rewrite IHc. cbn [snd fst]. destruct e; reflexivity.
Qed.
Lemma pick_name_id : forall id l x acc, NoDup (map snd l) -> In (x, id) l ->
  fold_left (pick_name id) l acc = Some x.
Proof.
  induction l as [|[y i] l IH]; intros x acc N H; [destruct H|].
  cbn [map snd] in N. apply NoDup_cons_iff in N as [N1 N2]. cbn [fold_left].
  destruct H as [H|H].
  - injection H as -> ->. unfold pick_name at 2. cbn [snd fst]. rewrite Nat.eqb_refl.
    assert (K : forall l (acc : option str), ~ In id (map snd l) -> fold_left (pick_name id) l acc = acc).
    { clear. induction l as [|[y i] l IH]; intros acc H; [auto|]. cbn [fold_left map snd In] in *.
      rewrite IH by tauto. unfold pick_name. cbn [snd].
      destruct (i =? id) eqn:E; auto. apply Nat.eqb_eq in E. tauto. }
    now apply K.
  - apply IH; auto.
Qed.

(** * One property *)
Definition ok (mro : list cls) (h : heap) : Prop :=
  NoDup (map snd (decls mro)) /\
  forall x id, In (x, id) (decls mro) ->
    id < length h /\ (p_name (pget h id) = None \/ p_name (pget h id) = Some x).
Definition eqv (mro : list cls) (h h' : heap) : Prop :=
  forall x id, In (x, id) (decls mro) ->
    p_type (pget h id) = p_type (pget h' id) /\ p_default (pget h id) = p_default (pget h' id) /\
    key_of h x id = key_of h' x id.

Lemma ok_intro : forall mro h, well_formed mro h -> remembers mro h -> ok mro h.
Proof.
  intros mro h (A & B & C) R. split; [now apply decls_nodup|].
  intros x id H. apply decls_in in H as [n H]. split; [eapply B; eauto|eapply R; eauto].
Qed.
Lemma eqv_same : forall mro h h', eqv mro h h' <-> same_up_to_memory mro h h'.
Proof.
  intros mro h h'. split.
  - intros E n x id H. apply E. apply decls_in. eauto.
  - intros E x id H. apply decls_in in H as [n H]. eapply E; eauto.
Qed.
Lemma eqv_refl : forall mro h, eqv mro h h.
Proof. intros mro h x id _. auto. Qed.
Lemma eqv_trans : forall mro h1 h2 h3, eqv mro h1 h2 -> eqv mro h2 h3 -> eqv mro h1 h3.
Proof.
  intros mro h1 h2 h3 A B x id H. destruct (A x id H) as (? & ? & ?), (B x id H) as (? & ? & ?).
  repeat split; congruence.
Qed.

Lemma ok_inj : forall mro h x y id, ok mro h -> In (x, id) (decls mro) -> In (y, id) (decls mro) -> x = y.
Proof.
  intros mro h x y id [N _] Hx Hy. revert N Hx Hy. generalize (decls mro) as l.
  induction l as [|[z i] l IH]; intros N Hx Hy; [destruct Hx|].
  cbn [map snd] in N. apply NoDup_cons_iff in N as [N1 N2].
  assert (K : forall w, In (w, id) l -> In id (map snd l)).
  { intros w Hw. apply in_map_iff. exists (w, id). auto. }
  destruct Hx as [Hx|Hx], Hy as [Hy|Hy]; [congruence| | |auto].
  - injection Hx as -> ->. exfalso. eauto.
  - injection Hy as -> ->. exfalso. eauto.
Qed.

Lemma set_propname_ok : forall mro h x id, ok mro h -> In (x, id) (decls mro) ->
  let h' := set_propname mro id h in
  ok mro h' /\ eqv mro h h' /\ p_name (pget h' id) = Some x /\ p_key (pget h' id) = p_key (pget h id).
Proof.
  intros mro h x id O H h'. subst h'. unfold set_propname.
  destruct (proj2 O x id H) as [Hl Hn].
  destruct (p_name (pget h id)) as [y|] eqn:E.
  - destruct Hn as [?|Hn]; [discriminate|]. injection Hn as ->. split; [auto|].
    split; [apply eqv_refl|]. auto.
  - assert (F : find_name mro id = Some x).
    { rewrite find_name_decls. apply pick_name_id; auto. apply O. }
    rewrite F. split; [|split].
    + split; [apply O|]. intros y i Hy. rewrite pset_length. split; [apply (proj2 O y i Hy)|].
      destruct (Nat.eq_dec i id) as [->|Hne].
      * rewrite pget_pset_same by auto. right. cbn. f_equal. eapply ok_inj; eauto.
      * rewrite pget_pset_other by auto. apply (proj2 O y i Hy).
    + intros y i Hy. unfold key_of. destruct (Nat.eq_dec i id) as [->|Hne].
      * rewrite pget_pset_same by auto. auto.
      * rewrite pget_pset_other by auto. auto.
    + rewrite pget_pset_same by auto. auto.
Qed.

Definition outcome (p : prop) (x k : str) (config d : dict) : dict * option exn :=
  match dget k config with
  | Some v => match p_type p v with
              | Ok v' => (dput x v' d, None)
              | Err e => (d, Some (conv_error e))
              end
  | None => (d, None)
  end.

Lemma from_config_ok : forall mro h x id config d, ok mro h -> In (x, id) (decls mro) ->
  exists h', from_config mro id config h d = (let '(d', e) := outcome (pget h id) x (key_of h x id) config d in (h', d', e)) /\
    ok mro h' /\ eqv mro h h' /\ p_key (pget h' id) = Some (key_of h x id).
Proof.
  intros mro h x id config d O H.
  destruct (set_propname_ok mro h x id O H) as (O1 & E1 & N1 & K1).
  unfold from_config. set (h1 := set_propname mro id h) in *.
  set (h2 := match p_key (pget h1 id) with
             | Some _ => h1 | None => pset h1 id (with_key (pget h1 id) (p_name (pget h1 id))) end).
  assert (Hl : id < length h1) by apply (proj2 O1 x id H).
  assert (P2 : ok mro h2 /\ eqv mro h1 h2 /\ p_key (pget h2 id) = Some (key_of h1 x id) /\ p_name (pget h2 id) = Some x).
  { subst h2. unfold key_of at 1. destruct (p_key (pget h1 id)) as [k|] eqn:Ek.
    - split; [auto|]. split; [apply eqv_refl|]. auto.
    - rewrite pget_pset_same by auto. cbn. split; [|split; [|auto]].
      + split; [apply O1|]. intros y i Hy. rewrite pset_length. split; [apply (proj2 O1 y i Hy)|].
        destruct (Nat.eq_dec i id) as [->|Hne].
        * rewrite pget_pset_same by auto. cbn. apply (proj2 O1 y id Hy).
        * rewrite pget_pset_other by auto. apply (proj2 O1 y i Hy).
      + intros y i Hy. unfold key_of. destruct (Nat.eq_dec i id) as [->|Hne].
        * rewrite pget_pset_same by auto. cbn. rewrite N1, Ek. repeat split.
          eapply ok_inj; eauto.
        * rewrite pget_pset_other by auto. auto. }
  destruct P2 as (O2 & E2 & K2 & N2).
  exists h2. rewrite K2, N2.
  assert (E : eqv mro h h2) by (eapply eqv_trans; eauto).
  destruct (E x id H) as (T & _ & KK). destruct (E1 x id H) as (_ & _ & KK1).
  unfold outcome. rewrite T, KK1. split; [|auto].
  destruct (dget (key_of h1 x id) config); auto. destruct (p_type (pget h2 id) p); auto.
Qed.

(** * All properties *)
Fixpoint apply_all (h : heap) (l : list (str * nat)) (config d : dict) : dict * option exn :=
  match l with
  | [] => (d, None)
  | (x, id) :: r =>
      match outcome (pget h id) x (key_of h x id) config d with
      | (d', None) => apply_all h r config d'
      | (d', Some e) => (d', Some e)
      end
  end.
Lemma apply_eqv : forall mro h h' l config d, eqv mro h h' -> incl l (decls mro) ->
  apply_all h l config d = apply_all h' l config d.
Proof.
  induction l as [|[x id] l IH]; intros config d E I; [reflexivity|]. cbn [apply_all].
  destruct (E x id (I _ (or_introl eq_refl))) as (T & _ & K). unfold outcome. rewrite K, T.
  destruct (dget (key_of h' x id) config) as [v|].
  - destruct (p_type (pget h' id) v); auto. apply IH; auto. intros z Hz. apply I; now right.
  - apply IH; auto. intros z Hz. apply I; now right.
Qed.

Lemma read_props_ok : forall mro config l h d keys, ok mro h -> incl l (decls mro) ->
  exists h' ks, read_props mro l config h d keys =
      (let '(d', e) := apply_all h l config d in (h', d', e, ks)) /\
    ok mro h' /\ eqv mro h h' /\
    (snd (apply_all h l config d) = None -> ks = keys ++ map (fun e => Some (key_of h (fst e) (snd e))) l).
Proof.
  induction l as [|[x id] l IH]; intros h d keys O I.
  - exists h, keys. cbn. rewrite app_nil_r. split; [reflexivity|]. split; auto. split; [apply eqv_refl|auto].
  - assert (Hin : In (x, id) (decls mro)) by (apply I; now left).
    destruct (from_config_ok mro h x id config d O Hin) as (h1 & F & O1 & E1 & K1).
    cbn [read_props apply_all]. rewrite F.
    destruct (outcome (pget h id) x (key_of h x id) config d) as [d1 [e|]] eqn:Eo.
    + exists h1, keys. split; [reflexivity|]. split; auto. split; auto. discriminate.
    + destruct (IH h1 d1 (keys ++ [p_key (pget h1 id)]) O1) as (h2 & ks & R & O2 & E2 & K2).
      { intros a Ha. apply I; now right. }
      assert (EA : apply_all h1 l config d1 = apply_all h l config d1).
      { symmetry. eapply apply_eqv; eauto. intros a Ha. apply I; now right. }
      rewrite EA in R, K2. exists h2, ks. split; [exact R|]. split; auto.
      split; [eapply eqv_trans; eauto|]. intros HN. rewrite (K2 HN), K1, <- app_assoc. cbn.
      do 2 f_equal. apply map_ext_in. intros [y i] Hy. cbn. f_equal.
      symmetry. apply (E1 y i). apply I; now right.
Qed.

Lemma some_keys_map : forall A (f : A -> str) l, some_keys (map (fun e => Some (f e)) l) = map f l.
Proof. induction l as [|a l IH]; cbn; [auto|now rewrite <- IH]. Qed.

(** * The whole *)
Definition key_list (h : heap) (mro : list cls) : list str :=
  map (fun e => key_of h (fst e) (snd e)) (decls mro).
Definition key_error (cmp : compare) (use_defaults : bool) (config : dict) (keys : list str) : bool :=
  match cmp with
  | CFalse | CList [] => false
  | CTrue => unused config keys
  | CList l => unused config (keys ++ l)
  end || (negb use_defaults && missing config keys).

Lemma read_config_ok : forall mro config cmp ud h d, ok mro h ->
  exists h', ok mro h' /\ eqv mro h h' /\
    read_config mro config cmp ud h d =
      match apply_all h (decls mro) config d with
      | (d', Some e) => (h', d', Some e)
      | (d', None) => (h', d', if key_error cmp ud config (key_list h mro) then Some CaputConfigError else None)
      end.
Proof.
  intros mro config cmp ud h d O.
  destruct (read_props_ok mro config (decls mro) h d [] O (fun a H => H)) as (h' & ks & R & O' & E & K).
  exists h'. split; auto. split; auto. unfold read_config. rewrite R.
  destruct (apply_all h (decls mro) config d) as [d' [e|]]; [reflexivity|].
  specialize (K eq_refl). subst ks. cbn [app].
  rewrite (some_keys_map _ (fun e => key_of h (fst e) (snd e))). fold (key_list h mro).
  unfold key_error. destruct (negb ud && missing config (key_list h mro));
    destruct cmp as [| |[|a l]]; cbn [orb]; try reflexivity;
    match goal with |- context [unused config ?x] => destruct (unused config x) end; reflexivity.
Qed.

(** * What the loop does to the instance *)
Lemma apply_value : forall h config l d d', apply_all h l config d = (d', None) ->
  (forall x id, In (x, id) l -> forall v, dget (key_of h x id) config = Some v ->
     exists v', p_type (pget h id) v = Ok v') /\
  (forall x, (forall id, In (x, id) l -> ~ in_config config (key_of h x id)) -> dget x d' = dget x d) /\
  (forall a x id b v v', l = a ++ (x, id) :: b -> dget (key_of h x id) config = Some v ->
     p_type (pget h id) v = Ok v' ->
     (forall id', In (x, id') b -> ~ in_config config (key_of h x id')) -> dget x d' = Some v').
Proof.
  induction l as [|[y i] l IH]; intros d d' H.
  - cbn in H. injection H as <-. repeat split; auto; [intros x id []|].
    intros a x id b v v' E. destruct a; discriminate.
  - cbn [apply_all] in H. destruct (outcome (pget h i) y (key_of h y i) config d) as [d1 [e|]] eqn:Eo; [discriminate|].
    destruct (IH _ _ H) as (A & B & C). split; [|split].
    + intros x id [Hx|Hx] v Hv; [|eauto]. injection Hx as -> ->. unfold outcome in Eo. rewrite Hv in Eo.
      destruct (p_type (pget h id) v); [eauto|discriminate].
    + intros x Hx. rewrite B by (intros id Hid; apply Hx; now right).
      unfold outcome in Eo. destruct (dget (key_of h y i) config) as [v|] eqn:Ev.
      * destruct (p_type (pget h i) v) as [v'|]; [|discriminate]. injection Eo as <-.
        apply dget_dput_other. intros ->. apply (Hx i); [now left|]. now exists v.
      * injection Eo as <-. reflexivity.
    + intros a x id b v v' E Hv Ht Hb. destruct a as [|z a].
      * injection E as -> -> ->. rewrite B by auto. unfold outcome in Eo. rewrite Hv, Ht in Eo.
        injection Eo as <-. apply dget_dput_same.
      * injection E as <- ->. eapply C; eauto.
Qed.

Lemma apply_error : forall h config l d d' e, apply_all h l config d = (d', Some e) ->
  exists a x id b v e0, l = a ++ (x, id) :: b /\ dget (key_of h x id) config = Some v /\
    p_type (pget h id) v = Err e0 /\ e = conv_error e0 /\ snd (apply_all h a config d) = None /\
    fst (apply_all h a config d) = d'.
Proof.
  induction l as [|[y i] l IH]; intros d d' e H; [discriminate|].
  cbn [apply_all] in H. destruct (outcome (pget h i) y (key_of h y i) config d) as [d1 [e1|]] eqn:Eo.
  - injection H as <- <-. unfold outcome in Eo. destruct (dget (key_of h y i) config) as [v|] eqn:Ev; [|discriminate].
    destruct (p_type (pget h i) v) as [v'|e0] eqn:Et; [discriminate|]. injection Eo as <- <-.
    exists [], y, i, l, v, e0. repeat split; auto.
  - destruct (IH _ _ _ H) as (a & x & id & b & v & e0 & -> & Hv & Ht & -> & Ha & Hd).
    exists ((y, i) :: a), x, id, b, v, e0. repeat split; auto; cbn [apply_all]; rewrite Eo; auto.
Qed.

Lemma apply_success : forall h config l d, snd (apply_all h l config d) = None <->
  forall x id v, In (x, id) l -> dget (key_of h x id) config = Some v -> exists v', p_type (pget h id) v = Ok v'.
Proof.
  intros h config l d. destruct (apply_all h l config d) as [d' [e|]] eqn:E; cbn; split; intros H; try discriminate; auto.
  - apply apply_error in E as (a & x & id & b & v & e0 & -> & Hv & Ht & _).
    destruct (H x id v) as [v' Hv']; [apply in_elt|auto|congruence].
  - intros x id v Hin Hv. destruct (apply_value _ _ _ _ _ E) as (A & _). eauto.
Qed.

(** * Keys *)
Lemma mem_in : forall k l, mem k l = true <-> In k l.
Proof.
  intros k l. unfold mem. rewrite existsb_exists. split.
  - intros (x & H & E). apply seqb_eq in E. now subst.
  - intros H. exists k. split; auto. apply seqb_refl.
Qed.
Lemma unused_iff : forall config l, unused config l = false <-> forall k, In k (map fst config) -> In k l.
Proof.
  intros config l. unfold unused. split.
  - intros H k Hk. destruct (mem k l) eqn:E; [now apply mem_in|]. exfalso.
    assert (X : existsb (fun k => negb (mem k l)) (map fst config) = true).
    { apply existsb_exists. exists k. now rewrite E. }
    congruence.
  - intros H. destruct (existsb _ _) eqn:E; auto. apply existsb_exists in E as (k & Hk & Hm).
    apply H, mem_in in Hk. now rewrite Hk in Hm.
Qed.
Lemma missing_iff : forall config l, missing config l = false <-> forall k, In k l -> In k (map fst config).
Proof.
  intros config l. unfold missing. split.
  - intros H k Hk. destruct (mem k (map fst config)) eqn:E; [now apply mem_in|]. exfalso.
    assert (X : existsb (fun k => negb (mem k (map fst config))) l = true).
    { apply existsb_exists. exists k. now rewrite E. }
    congruence.
  - intros H. destruct (existsb _ _) eqn:E; auto. apply existsb_exists in E as (k & Hk & Hm).
    apply H, mem_in in Hk. now rewrite Hk in Hm.
Qed.

(** * Order of declarations *)
(** Later in the loop: in a more derived class, or later in the same one. *)
Lemma decls_split : forall mro a x id b y i, decls mro = a ++ (x, id) :: b -> In (y, i) b ->
  exists n m, declared mro n x id /\ declared mro m y i /\ m <= n.
Proof.
  induction mro as [|c mro IH]; intros a x id b y i E Hin; [destruct a; discriminate|].
  rewrite decls_eq in E. cbn [rev] in E. rewrite flat_map_snoc in E. rewrite <- decls_eq in E.
  symmetry in E. destruct (app_eq_app _ _ _ _ E) as (l & [[E1 E2]|[E1 E2]]).
  - (* (x,id) in the last class *)
    assert (Hx : In (x, EProp id) c /\ In (y, EProp i) c).
    { rewrite <- !cprops_in, E2. split; [apply in_elt|apply in_or_app; right; now right]. }
    exists 0, 0. split; [exists c; tauto|]. split; [exists c; tauto|auto].
  - destruct l as [|[x' id'] l].
    + cbn in E2. assert (Hx : In (x, EProp id) c /\ In (y, EProp i) c).
      { rewrite <- !cprops_in, <- E2. split; [now left|now right]. }
      exists 0, 0. split; [exists c; tauto|]. split; [exists c; tauto|auto].
    + injection E2 as <- <- E2. rewrite E2 in Hin. apply in_app_or in Hin as [Hin|Hin].
      * destruct (IH _ _ _ _ _ _ E1 Hin) as (n & m & (c1 & H1 & H2) & (c2 & H3 & H4) & Hl).
        exists (S n), (S m). split; [exists c1; auto|]. split; [exists c2; auto|lia].
      * assert (Hd : In (x, id) (decls mro)) by (rewrite E1; apply in_elt).
        apply decls_in in Hd as (n & c1 & H1 & H2).
        exists (S n), 0. split; [exists c1; auto|]. split; [|lia]. exists c. split; auto.
        now apply cprops_in.
Qed.

Lemma in_force_lookup : forall mro n x id, (forall c, In c mro -> NoDup (map fst c)) ->
  in_force mro n x id -> lookup mro x = Some (EProp id).
Proof.
  induction mro as [|c mro IH]; intros n x id N [(c0 & Hn & Hin) Hf]; [destruct n; discriminate|].
  cbn [lookup]. destruct n as [|n].
  - injection Hn as ->. rewrite (dget_nodup _ c0 x (EProp id)); auto. apply N. now left.
  - destruct (dget x c) as [e|] eqn:E.
    + exfalso. apply (Hf 0 c); [lia|reflexivity|]. apply dget_in. eauto.
    + apply IH with n; [intros c1 H1; apply N; now right|]. split; [exists c0; auto|].
      intros m c1 Hm H1. apply (Hf (S m) c1); auto. lia.
Qed.
