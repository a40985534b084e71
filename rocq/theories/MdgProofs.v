From Coq Require Import String.
From Coq Require Import List Ascii Bool Arith ZArith Lia.
From Verif Require Import PyBase PyStr MemModel MemSpec MemProofs MemProofs2 MdgModel MdgSpec.
Import ListNotations.
Open Scope list_scope.
Open Scope nat_scope.

Section Group.
Context {D V : Type}.
Notation node := (node D V).
Implicit Types t : node.

Lemma abs_slash : absolute [slash].
Proof. exists []. reflexivity. Qed.
Lemma mget_eq : forall r t self name, absolute self ->
  mgetitem r t self name = rbind (crawl t (target self name)) (fun n =>
    if name_allowed r (canonical (target self name)) n then Ok (canonical (target self name), n) else Err KeyError).
Proof.
  intros r t self name H. unfold mgetitem. rewrite getitem_target by assumption.
  destruct (crawl t (target self name)); reflexivity.
Qed.
Lemma allowed_iff : forall r p n, name_allowed r (canonical p) n = true <-> @Visible D V r p n.
Proof. intros r p [d|a k]; reflexivity. Qed.
Lemma target_name : forall self k, good k -> target self k = words self ++ [k].
Proof.
  intros self k (H1 & H2). unfold target. destruct k as [|c k]; [easy|].
  destruct (ceqb c slash) eqn:E; [apply ceqb_eq in E; subst; exfalso; apply H2; now left|].
  rewrite (words_word (c :: k)) by (split; assumption). reflexivity.
Qed.

(** *** Iterating *)
Lemma iter_eq : forall r t self a kids keys, absolute self -> crawl t (words self) = Ok (Grp a kids) ->
  Forall good keys -> (forall k, In k keys -> exists m, dget k kids = Some m) ->
  iter_loop r t self keys = Ok (filter (fun k => match dget k kids with
      | Some m => name_allowed r (canonical (words self ++ [k])) m | None => false end) keys).
Proof.
  intros r t self a kids keys Ha Hc. induction keys as [|k keys IH]; intros G H; [reflexivity|].
  inversion G as [|? ? G1 G2]; subst. cbn [iter_loop filter].
  rewrite mget_eq, target_name by assumption.
  assert (E : crawl t (words self ++ [k]) = match dget k kids with Some m => Ok m | None => Err KeyError end).
  { rewrite crawl_app, Hc. cbn [rbind crawl]. destruct (dget k kids); reflexivity. }
  rewrite E. destruct (H k (or_introl eq_refl)) as (m & Em). rewrite Em. cbn [rbind].
  rewrite IH; [|exact G2|intros k' H'; apply H; now right].
  destruct (name_allowed r (canonical (words self ++ [k])) m); reflexivity.
Qed.
Lemma dget_key : forall (W : Type) k (l : list (str * W)), In k (map fst l) -> exists v, dget k l = Some v.
Proof.
  intros W k l. induction l as [|(k', v) l IH]; [easy|]. cbn [map fst In dget]. intros [ -> |H].
  - rewrite seqb_refl. eauto.
  - destruct (seqb k k'); eauto.
Qed.
Lemma key_dget : forall (W : Type) k (l : list (str * W)) v, dget k l = Some v -> In k (map fst l).
Proof.
  intros W k l v. induction l as [|(k', v') l IH]; [easy|]. cbn [map fst In dget].
  destruct (seqb k k') eqn:E; [apply seqb_eq in E; subst; now left|auto].
Qed.
Theorem iter_ok : forall r t self a kids, absolute self -> crawl t (words self) = Ok (Grp a kids) ->
  Forall good (map fst kids) -> NoDup (map fst kids) ->
  exists l, miter r t self = Ok l /\ mlen r t self = Ok (length l) /\ NoDup l
  /\ (forall k, In k l <-> exists m, dget k kids = Some m /\ Visible r (words self ++ [k]) m)
  /\ forall k, good k -> exists b, mcontains r t self k = Ok b /\ (b = true <-> In k l).
Proof.
  intros r t self a kids Ha Hc G N. eexists.
  assert (E : miter r t self = Ok (filter (fun k => match dget k kids with
      | Some m => name_allowed r (canonical (words self ++ [k])) m | None => false end) (map fst kids))).
  { unfold miter. rewrite getitem_target by apply abs_slash.
    rewrite target_absolute by assumption. rewrite Hc. cbn [rbind].
    apply (iter_eq r t self a kids); auto using dget_key. }
  assert (F : forall k, In k (filter (fun k => match dget k kids with
      | Some m => name_allowed r (canonical (words self ++ [k])) m | None => false end) (map fst kids))
     <-> exists m, dget k kids = Some m /\ Visible r (words self ++ [k]) m).
  { intro k. rewrite filter_In. split.
    - intros (_ & H). destruct (dget k kids) as [m|]; [|easy]. exists m. split; [easy|]. now apply allowed_iff.
    - intros (m & Em & H). split; [exact (key_dget _ _ _ _ Em)|]. rewrite Em. now apply allowed_iff. }
  split; [exact E|]. split; [unfold mlen; rewrite E; reflexivity|]. split; [now apply NoDup_filter|]. split; [exact F|].
  intros k Gk. unfold mcontains. rewrite mget_eq, target_name by assumption.
  rewrite crawl_app, Hc. cbn [rbind crawl].
  destruct (dget k kids) as [m|] eqn:Em; cbn [rbind].
  - destruct (name_allowed r (canonical (words self ++ [k])) m) eqn:En.
    + exists true. split; [reflexivity|]. rewrite F. split; [|easy]. intros _. exists m. split; [easy|]. now apply allowed_iff.
    + exists false. split; [reflexivity|]. rewrite F. split; [easy|]. intros (m' & E' & H'). rewrite Em in E'. injection E' as <-.
      apply allowed_iff in H'. congruence.
  - exists false. split; [reflexivity|]. rewrite F. split; [easy|]. intros (m' & E' & _). congruence.
Qed.

(** *** Names allowed by a Container *)
Lemma split_top : forall k, ~ In slash k -> path_split (slash :: k) = ([slash], k).
Proof.
  intros k H. unfold path_split, head_of.
  assert (E : tail_of slash (slash :: k) = k) by (exact (tail_of_app slash [] k H)).
  rewrite E. cbn [length]. replace (S (length k) - length k) with 1 by lia. reflexivity.
Qed.
Lemma top_split : forall P, absolute P -> fst (path_split P) = [slash] -> exists k, ~ In slash k /\ P = slash :: k.
Proof.
  intros P (q & Hq) H. destruct (in_last_split slash P) as (a & b & HP & Hb); [rewrite Hq; now left|].
  exists b. split; [exact Hb|]. unfold path_split, head_of in H.
  rewrite HP in H. rewrite tail_of_app in H by assumption.
  assert (Hh : firstn (length (a ++ slash :: b) - length b) (a ++ slash :: b) = a ++ [slash]).
  { replace (a ++ slash :: b) with ((a ++ [slash]) ++ b) by (now rewrite <- app_assoc).
    rewrite app_length. replace (length (a ++ [slash]) + length b - length b) with (length (a ++ [slash])) by lia.
    rewrite firstn_app, Nat.sub_diag, firstn_all. cbn. apply app_nil_r. }
  rewrite Hh in H. cbn [fst] in H.
  destruct a as [|x a]; [exact HP|]. exfalso.
  assert (x = slash) as -> by (rewrite Hq in HP; cbn in HP; congruence).
  destruct (forallb (ceqb slash) ((slash :: a) ++ [slash])) eqn:EF.
  - cbn in H. injection H as H. now destruct a.
  - destruct (rstrip_form ((slash :: a) ++ [slash])) as (j & E0). rewrite H in E0. rewrite E0 in EF.
    assert (forallb (ceqb slash) ([slash] ++ repeat slash j) = true); [|congruence].
    clear. rewrite forallb_app. cbn [forallb]. rewrite ceqb_refl. cbn [andb].
    induction j as [|j IH]; [reflexivity|]. cbn [repeat forallb]. now rewrite ceqb_refl.
Qed.
Lemma join_root : forall n, path_join [slash] n = match n with c :: _ => if ceqb c slash then n else slash :: n | [] => [slash] end.
Proof.
  intros [|c n]; [reflexivity|]. unfold path_join. cbn [startswith].
  assert (E : ceqb slash c = ceqb c slash).
  { destruct (ceqb slash c) eqn:E1, (ceqb c slash) eqn:E2; try reflexivity; exfalso.
    - apply ceqb_eq in E1. subst. now rewrite ceqb_refl in E2.
    - apply ceqb_eq in E2. subst. now rewrite ceqb_refl in E1. }
  rewrite E. destruct (ceqb c slash); reflexivity.
Qed.
Lemma accepts : forall name, dataset_allowed container_rules (path_join [slash] name) = true
  <-> exists k, Toplevel name k.
Proof.
  intro name. cbn [dataset_allowed container_rules]. rewrite seqb_eq. split.
  - intro H. apply top_split in H as (k & Hk & E); [|apply path_join_absolute, abs_slash].
    exists k. split; [exact Hk|]. rewrite join_root in E. destruct name as [|c n].
    + left. now injection E.
    + destruct (ceqb c slash); [now right|]. left. congruence.
  - intros (k & Hk & [ -> | -> ]).
    + assert (E : path_join [slash] k = slash :: k).
      { rewrite join_root. destruct k as [|c k]; [reflexivity|].
        destruct (ceqb c slash) eqn:E; [|reflexivity]. apply ceqb_eq in E. subst. exfalso. apply Hk. now left. }
      rewrite E, split_top; [reflexivity|assumption].
    + change (path_join [slash] (slash :: k)) with (slash :: k). rewrite split_top; [reflexivity|assumption].
Qed.
Lemma join_top : forall name k, Toplevel name k -> path_join [slash] name = slash :: k.
Proof.
  intros name k (Hk & [ -> | -> ]); [|reflexivity].
  rewrite join_root. destruct k as [|c k]; [reflexivity|].
  destruct (ceqb c slash) eqn:E; [|reflexivity]. apply ceqb_eq in E. subst. exfalso. apply Hk. now left.
Qed.

(** *** Creating *)
Lemma create_top : forall a (kids : list (str * node)) name k (d : D), Toplevel name k ->
  fst (mcreate_dataset container_rules (Grp a kids) [slash] name d) = Grp a (dput k (Dset d) kids).
Proof.
  intros a kids name k d H. unfold mcreate_dataset.
  rewrite (proj2 (accepts name) (ex_intro _ k H)). rewrite (join_top _ _ H).
  unfold create_dataset. change (path_join [slash] (slash :: k)) with (slash :: k).
  rewrite split_top by apply H. reflexivity.
Qed.
Lemma top_target : forall name k, Toplevel name k -> k <> [] -> target [slash] name = [k].
Proof.
  intros name k H Hk. rewrite <- words_path_join by apply abs_slash. rewrite (join_top _ _ H).
  rewrite words_slash. apply words_word. split; [exact Hk|apply H].
Qed.
Theorem created_ok : forall a (kids : list (str * node)) name k (d : D), Toplevel name k -> k <> [] ->
  exists t, mcreate_dataset container_rules (Grp a kids) [slash] name d = (t, Ok (slash :: k, Dset d))
  /\ mgetitem container_rules t [slash] name = Ok (slash :: k, Dset d)
  /\ forall k', k' <> k -> crawl t [k'] = crawl (Grp a kids) [k'].
Proof.
  intros a kids name k d H Hk. exists (Grp a (dput k (Dset d) kids)).
  assert (C : crawl (Grp a (dput k (@Dset D V d) kids)) [k] = Ok (Dset d)) by (cbn [crawl]; now rewrite dget_dput_same).
  assert (T : target [slash] name = [k]) by now apply top_target.
  split; [|split].
  - pose proof (create_top a kids name k d H) as E. unfold mcreate_dataset in *.
    rewrite (proj2 (accepts name) (ex_intro _ k H)) in *. rewrite (join_top _ _ H) in *.
    unfold create_dataset in *. change (path_join [slash] (slash :: k)) with (slash :: k) in *.
    rewrite split_top in * by apply H.
    change (format_abs_path [slash]) with (Ok [slash]) in *. cbv iota beta in *.
    change (require_group (Grp a kids) [slash] [slash]) with (Grp a kids, Ok [slash]) in *. cbv iota beta zeta in *.
    change (root_loc [slash]) with (@nil str) in *. cbn [update_at] in *.
    f_equal. rewrite getitem_target by apply abs_slash.
    assert (E2 : target [slash] (path_join [slash] k) = [k]).
    { rewrite (join_top k k) by (split; [apply H|now left]). rewrite target_absolute by (eexists; reflexivity).
      rewrite words_slash. apply words_word. split; [exact Hk|apply H]. }
    rewrite E2, C. reflexivity.
  - rewrite mget_eq by apply abs_slash. rewrite T, C. cbn [rbind name_allowed dataset_allowed container_rules].
    assert (E : canonical [k] = slash :: k) by reflexivity.
    rewrite E, split_top by apply H. cbn [fst]. now rewrite seqb_refl.
  - intros k' Hn. cbn [crawl]. now rewrite dget_dput_other.
Qed.

(** *** What a Container protects *)
Lemma ddel_other : forall (W : Type) k k' (l : list (str * W)), k <> k' -> dget k (ddel k' l) = dget k l.
Proof. intros. now apply dget_ddel_other. Qed.
Lemma canonical_top : forall p, Forall good p -> fst (path_split (canonical p)) = [slash] -> p = [] \/ exists k, p = [k].
Proof.
  intros p G H. apply top_split in H as (k & Hk & E); [|apply canonical_absolute].
  assert (W : words (canonical p) = p) by now apply words_canonical.
  rewrite E, words_slash in W. destruct k as [|c k]; [left; now rewrite <- W|].
  right. exists (c :: k). rewrite <- W. now apply words_word.
Qed.
Lemma protected_call : forall a kids c k g, on_root c -> Spares k c -> dget k kids = Some g -> @is_grp D V g ->
  exists kids', fst (mrun_call container_rules (Grp a kids) c) = Grp a kids' /\ dget k kids' = Some g.
Proof.
  intros a kids c k g O S K (ga & gk & Hg).
  assert (HC : forall n d, ~ Toplevel n k -> exists kids', fst (mcreate_dataset container_rules (Grp a kids) [slash] n d) = Grp a kids' /\ dget k kids' = Some g).
  { intros n d Hn. destruct (dataset_allowed container_rules (path_join [slash] n)) eqn:E.
    - apply accepts in E as (k' & Hk'). rewrite (create_top _ _ _ _ _ Hk'). eexists. split; [reflexivity|].
      rewrite dget_dput_other; [exact K|]. intros <-. contradiction.
    - unfold mcreate_dataset. rewrite E. eexists. split; [reflexivity|exact K]. }
  destruct c as [s n|s n|s n d|s n d|s n]; cbn [on_root Spares] in *; subst s; cbn [mrun_call].
  - exists kids. split; [reflexivity|exact K].
  - exists kids. split; [|exact K]. unfold mrequire_group.
    destruct (mgetitem container_rules (Grp a kids) [slash] n) as [(p & [d|x y])|[]]; reflexivity.
  - destruct (HC n d S) as (kids' & E1 & E2). exists kids'. split; [|exact E2].
    destruct (mcreate_dataset container_rules (Grp a kids) [slash] n d); exact E1.
  - unfold mrequire_dataset.
    assert (X : exists kids', Grp a kids = Grp a kids' /\ dget k kids' = Some g) by eauto.
    destruct (mgetitem container_rules (Grp a kids) [slash] n) as [(p & [d0|x y])|[]]; cbn [fst]; try exact X.
    destruct (HC n d S) as (kids' & E1 & E2). exists kids'. split; [|exact E2].
    destruct (mcreate_dataset container_rules (Grp a kids) [slash] n d); exact E1.
  - unfold mdelitem.
    assert (X : exists kids', Grp a kids = Grp a kids' /\ dget k kids' = Some g) by eauto.
    destruct (mcontains container_rules (Grp a kids) [slash] n) as [[]|e] eqn:EC; try exact X.
    unfold mcontains in EC. rewrite mget_eq in EC by apply abs_slash.
    destruct (crawl (Grp a kids) (target [slash] n)) as [m|e] eqn:Em; cbn [rbind] in EC; [|now destruct e].
    destruct m as [d|x y]; [|discriminate]. cbn [name_allowed dataset_allowed container_rules] in EC.
    destruct (seqb (fst (path_split (canonical (target [slash] n)))) [slash]) eqn:ES; [|discriminate].
    apply seqb_eq in ES. apply canonical_top in ES; [|apply target_good, abs_slash].
    destruct ES as [ES|(k' & ES)]; [rewrite ES in Em; discriminate|].
    rewrite ES in Em. cbn [crawl] in Em.
    destruct (dget k' kids) as [m|] eqn:Ek; [|discriminate]. injection Em as ->.
    assert (Hkk : k <> k') by (intros <-; rewrite K in Ek; subst g; discriminate).
    destruct (path_split (path_join [slash] n)) as (pp, nm) eqn:EP.
    assert (Hp : plain_end (path_join [slash] n) \/ exists q, path_join [slash] n = q ++ [slash]).
    { destruct (path_join [slash] n) as [|c0 s0] eqn:EJ using rev_ind.
      - destruct (path_join_absolute [slash] n abs_slash) as (q & Eq). rewrite EJ in Eq. discriminate.
      - clear IHs0. destruct (ascii_dec c0 slash) as [ -> |Hc]; [right; eauto|left; exists s0, c0; auto]. }
    destruct Hp as [Hp|(q & Hq)].
    + destruct (path_split_spec _ (path_join_absolute _ n abs_slash) Hp) as (h & tl0 & E1 & E2 & E3 & E4).
      rewrite EP in E1. injection E1 as <- <-.
      rewrite words_path_join, ES in E4 by apply abs_slash.
      destruct (words pp) as [|w ws] eqn:EW; [|destruct ws; discriminate].
      cbn [app] in E4. injection E4 as <-.
      rewrite getitem_target by apply abs_slash. rewrite target_absolute by assumption. rewrite EW. cbn [crawl rbind].
      change (canonical []) with [slash].
      exists (ddel k' kids). split; [|now rewrite ddel_other].
      unfold delitem. rewrite getitem_target by apply abs_slash. rewrite target_name by assumption.
      change (words [slash]) with (@nil str). cbn [app crawl]. rewrite Ek. cbn [rbind].
      assert (J : path_join [slash] k' = slash :: k') by (apply join_top; split; [apply E3|now left]).
      rewrite J, split_top by apply E3.
      change (root_getitem (Grp a kids) [slash]) with (@Ok node (Grp a kids)). cbv iota beta.
      rewrite Ek. reflexivity.
    + (* a slash at the end: the parent is the dataset *)
      assert (nm = []) as ->.
      { unfold path_split in EP. injection EP as _ <-. rewrite Hq. exact (tail_of_app slash q [] (fun H => H)). }
      assert (W : words pp = [k']).
      { unfold path_split in EP. rewrite Hq in EP.
        assert (T0 : tail_of slash (q ++ [slash]) = []) by exact (tail_of_app slash q [] (fun H => H)).
        unfold head_of in EP. rewrite T0 in EP. cbn [length] in EP. rewrite Nat.sub_0_r, firstn_all in EP.
        injection EP as <-.
        assert (W0 : words (q ++ [slash]) = [k']) by (rewrite <- Hq, words_path_join by apply abs_slash; exact ES).
        destruct (forallb (ceqb slash) (q ++ [slash])); [exact W0|now rewrite rstrip_words]. }
      assert (A : absolute pp \/ ~ absolute pp) by apply absolute_dec.
      assert (G : getitem (Grp a kids) [slash] pp = Ok (canonical [k'], Dset d)).
      { rewrite getitem_target by apply abs_slash.
        assert (T : target [slash] pp = [k']) by (rewrite <- words_path_join by apply abs_slash;
          rewrite words_path_join by apply abs_slash; unfold target; destruct pp as [|c0 p0]; [discriminate|];
          destruct (ceqb c0 slash); [exact W|exact W]).
        rewrite T. cbn [crawl]. now rewrite Ek. }
      rewrite G. cbn [fst]. exact X.
Qed.
Theorem protected : forall cs a kids k g, Forall on_root cs -> Forall (Spares k) cs -> dget k kids = Some g -> @is_grp D V g ->
  exists kids', fst (mrun_calls container_rules (Grp a kids) cs) = Grp a kids' /\ dget k kids' = Some g.
Proof.
  induction cs as [|c cs IH]; intros a kids k g O S K G; [eexists; split; [reflexivity|exact K]|].
  inversion O as [|? ? O1 O2]; subst. inversion S as [|? ? S1 S2]; subst.
  destruct (protected_call a kids c k g O1 S1 K G) as (kids1 & E1 & K1). cbn [mrun_calls].
  destruct (mrun_call container_rules (Grp a kids) c) as [t1 o1]. cbn [fst] in E1. subst t1.
  destruct (IH a kids1 k g O2 S2 K1 G) as (kids2 & E2 & K2).
  destruct (mrun_calls container_rules (Grp a kids1) cs) as [t2 o2]. cbn [fst] in *. eauto.
Qed.
End Group.
