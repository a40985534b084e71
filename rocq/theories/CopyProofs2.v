(** From the image of a tree to what the copy holds. *)
From Coq Require Import List Ascii Bool Arith ZArith Lia Permutation.
From Verif Require Import PyBase PyStr MemModel JsonModel JsonSpec AttrModel AttrSpec AttrProofs CopyModel MemSpec MemProofs MemProofs2 CopySpec CopyProofs.
Import ListNotations.
Open Scope nat_scope.

Lemma selected_get : forall o p s, Selected (selections o) p s <-> get_selection o (canonical p) = s.
Proof.
  intros o p s. unfold Selected, get_selection. change (tl (canonical p)) with (join slash p).
  destruct (selections o) as [d|]; [|split; congruence].
  destruct (dget (canonical p) d) as [x|].
  - split; [intros [H|[H _]]; congruence|left; congruence].
  - destruct (dget (join slash p) d) as [x|].
    + split; [intros [H|[_ [H|[H _]]]]; congruence|intro H; right; split; [reflexivity|left; congruence]].
    + split; [intros [H|[_ [H|[_ H]]]]; congruence|intro H; right; split; [reflexivity|right; split; congruence]].
Qed.
Lemma ascii_texts : forall l, forallb ascii_text l = true <-> Forall (Forall (fun c => nat_of_ascii c < 128)) l.
Proof.
  intro l. rewrite forallb_forall, Forall_forall. unfold ascii_text. split; intros H s Hs; specialize (H s Hs).
  - rewrite forallb_forall in H. apply Forall_forall. intros c Hc. now apply Nat.ltb_lt, H.
  - rewrite Forall_forall in H. apply forallb_forall. intros c Hc. now apply Nat.ltb_lt, H.
Qed.
(** Unless it is to a file without conversion, the part asked for is prepared. *)
Lemma prepare_asked : forall o p d, Feasible o p d ->
  (to_file o = true -> convert_dataset_strings o = true \/ selections o = None) ->
  exists x, prepare o (canonical p) d = Ok (Some x, if to_file o then None else daxis d, false) /\ Asked o p d x.
Proof.
  intros o p d (s & y & Hs & Hy & HF) HC. unfold prepare, Asked. pose proof (proj1 (selected_get o p s) Hs) as E0.
  rewrite E0. destruct (to_file o) eqn:EF.
  - destruct (HF eq_refl) as [Ha Ht]. rewrite Ha. cbn [andb]. rewrite Hy. cbn [rbind].
    destruct (convert_dataset_strings o) eqn:EC.
    + assert (G : ensure_bytestring y = Ok (recode true true y)).
      { destruct y as [l|l|l]; try reflexivity. cbn [ensure_bytestring]. destruct Ht as [_ Ht].
        apply ascii_texts in Ht. now rewrite Ht. }
      rewrite G. cbn [rbind]. eexists. split; [reflexivity|]. exists s, y. auto.
    + destruct (HC eq_refl) as [|HN]; [discriminate|].
      assert (HsN : s = None) by (unfold get_selection in E0; rewrite HN in E0; congruence). rewrite HsN in Hy, Hs. clear E0 HsN. cbn [index] in Hy.
      assert (y = dat d) by congruence. subst y. assert (G : check_unicode (dat d) = Ok (dat d)).
      { destruct (dat d); try reflexivity. destruct Ht; discriminate. }
      rewrite G. cbn [rbind]. eexists. split; [reflexivity|]. exists None, (dat d). auto.
  - cbn [andb]. rewrite Hy. cbn [rbind]. destruct (convert_dataset_strings o) eqn:EC; cbn [rbind].
    + eexists. split; [reflexivity|]. exists s, y. split; [assumption|]. split; [assumption|]. now destruct y.
    + eexists. split; [reflexivity|]. exists s, y. auto.
Qed.
Lemma attrs_of_copied : forall o a, AttrsFeasible o a -> AttrsCopied o a (attrs_of o a []).
Proof.
  intros o a H k. unfold attrs_of.
  destruct (copyattrs_ok a (where_to o) (convert_attribute_strings o) []
    (fun v => match copy_value (convert_attribute_strings o) (where_to o) v with Ok w => w | Err _ => v end)) as (c & E & K).
  - intros k' v Hv. destruct (H k' v Hv) as (w & ->). reflexivity.
  - rewrite E, K. destruct (dget k a) as [v|] eqn:E0; [|reflexivity]. destruct (H k v E0) as (w & Hw). rewrite Hw. eauto.
Qed.
Lemma attrs_of_merged : forall o a b, AttrsFeasible o a -> forall k,
  match dget k a with
  | None => dget k (attrs_of o a b) = dget k b
  | Some v => exists w, copy_value (convert_attribute_strings o) (where_to o) v = Ok w /\ dget k (attrs_of o a b) = Some w
  end.
Proof.
  intros o a b H k. unfold attrs_of.
  destruct (copyattrs_ok a (where_to o) (convert_attribute_strings o) b
    (fun v => match copy_value (convert_attribute_strings o) (where_to o) v with Ok w => w | Err _ => v end)) as (c & E & K).
  - intros k' v Hv. destruct (H k' v Hv) as (w & ->). reflexivity.
  - rewrite E, K. destruct (dget k a) as [v|] eqn:E0; [|reflexivity]. destruct (H k v E0) as (w & Hw). rewrite Hw. eauto.
Qed.
Lemma unshared : forall o key, shallow o = false -> shared o = [] -> is_shared o key = false.
Proof. intros o key H1 H2. unfold is_shared. rewrite H1, H2. cbn. apply andb_false_r. Qed.

Theorem copy_ok : forall o t1 t2, shallow o = false -> shared o = [] ->
  TreeOK t1 -> GroupAt t1 [] -> GroupAt t2 [] -> Fresh t1 t2 ->
  (to_file o = true -> convert_dataset_strings o = true \/ selections o = None) ->
  (forall p d, find t1 p = Some (Dset d) -> Feasible o p d) ->
  (forall p n, find t1 p = Some n -> AttrsFeasible o (node_attrs n)) ->
  exists c t2' names, (forall fuel, deep_group_copy o t1 [slash] t2 [slash] (c + fuel) = Some (t2', Ok names)) /\
  (forall p d, find t1 p = Some (Dset d) -> exists x b,
     find t2' p = Some (Dset (mkdset x b (if to_file o then None else daxis d))) /\ Asked o p d x /\ AttrsCopied o (dattrs d) b) /\
  (forall p a kids, p <> [] -> find t1 p = Some (Grp a kids) -> exists b kids',
     find t2' p = Some (Grp b kids') /\ AttrsCopied o a b) /\
  (exists b kids', t2' = Grp b kids' /\ forall k,
     match dget k (node_attrs t1) with
     | None => dget k b = dget k (node_attrs t2)
     | Some v => exists w, copy_value (convert_attribute_strings o) (where_to o) v = Ok w /\ dget k b = Some w
     end) /\
  (forall p, find t1 p = None -> find t2' p = find t2 p).
Proof.
  intros o t1 t2 HS1 HS2 HT HG1 HG2 HF HC HD HA.
  destruct (copy_find o t1 HT) with (t2 := t2) as (c & t2' & names & Hc & _ & (kids' & Hr) & Hp & Hn); try assumption.
  - intros p d Hf. rewrite unshared by assumption.
    destruct (prepare_asked o p d (HD p d Hf) HC) as (x & Hx & _). eauto.
  - intros p n k v Hf Hk. exact (HA p n Hf k v Hk).
  - exists c, t2', names. split; [assumption|]. split; [|split; [|split; [|assumption]]].
    + intros p d Hf. assert (p <> []).
      { intros ->. destruct HG1 as (a & kids & G). congruence. }
      rewrite Hp by (congruence || assumption). rewrite Hf. cbn [option_map image]. unfold image_dset. rewrite unshared by assumption.
      destruct (prepare_asked o p d (HD p d Hf) HC) as (x & Hx & HAs). rewrite Hx.
      eexists. eexists. split; [reflexivity|]. split; [assumption|]. apply attrs_of_copied. exact (HA p _ Hf).
    + intros p a kids Hne Hf. rewrite Hp by (congruence || assumption). rewrite Hf. cbn [option_map image].
      eexists. eexists. split; [reflexivity|]. apply attrs_of_copied. exact (HA p _ Hf).
    + exists (attrs_of o (node_attrs t1) (node_attrs t2)), kids'. split; [assumption|].
      apply attrs_of_merged. exact (HA [] t1 eq_refl).
Qed.

(** *** In memory JSON-like attributes stay as they are *)
Lemma mem_value : forall v c, jsonlike v -> untagged v -> copy_value c Mem v = Ok v.
Proof.
  intros v c J U. unfold copy_value, map_unicode.
  assert (G : rbind (map_json Mem v) (fun v => set Mem (item v)) = Ok v).
  { destruct v as [|b|z|lit|x|x|x|z|l|kv|l]; try (destruct J; fail); cbn [map_json rbind item set]; try reflexivity.
    rewrite untagged_false by assumption. reflexivity. }
  destruct c; cbn [negb rbind]; [rewrite b2u_jsonlike by assumption|]; exact G.
Qed.

(** *** Without conversion a file gets everything *)
Lemma prepare_dropped : forall o p d x ax sk, to_file o = true -> convert_dataset_strings o = false -> daxis d = None ->
  prepare o (canonical p) d = Ok (x, ax, sk) -> x = Some (dat d).
Proof.
  intros o p d x ax sk H1 H2 H3 H. unfold prepare in H. rewrite H1, H2, H3 in H. cbn [andb] in H.
  destruct (index _ _) in H; [|discriminate]. cbn [rbind] in H. destruct (dat d); cbn in H; congruence.
Qed.

(** *** Skipped names *)
Section Skips.
Variable o : opts.
Lemma skips_in : forall n P s, (forall r a kids, find n r = Some (Grp a kids) -> NoDup (map fst kids)) ->
  (In s (skips o P n) <-> exists r d, find n r = Some (Dset d) /\ In s (skips_dset o (P ++ r) d)).
Proof.
  induction n as [d|a kids IH] using tree_ind'; intros P s HN.
  - cbn [skips]. split.
    + intro H. exists [], d. rewrite app_nil_r. auto.
    + intros (r & d' & Hf & H). destruct r as [|x r]; cbn [find] in Hf; [|discriminate].
      injection Hf as ->. now rewrite app_nil_r in H.
  - pose proof (HN [] a kids eq_refl) as N.
    cbn [skips]. rewrite skips_sorted.
    rewrite in_concat. split.
    + intros (l & Hl & Hs). apply in_map_iff in Hl as ([k m] & <- & Hi).
      apply (Permutation_in _ (Permutation_sym (py_sorted_perm _ kids))) in Hi.
      pose proof (dget_nodup _ _ _ _ N Hi) as Hk.
      rewrite Forall_forall in IH. specialize (IH (k, m) Hi). cbn [snd] in IH.
      apply IH in Hs.
      * destruct Hs as (r & d & Hf & Hs). exists (k :: r), d. cbn [find]. rewrite Hk.
        split; [assumption|]. now rewrite <- app_assoc in Hs.
      * intros r a' kids' Hf. apply (HN (k :: r) a' kids'). cbn [find]. now rewrite Hk.
    + intros ([|k r] & d & Hf & Hs); cbn [find] in Hf; [discriminate|].
      destruct (dget k kids) as [m|] eqn:Hk; [|discriminate].
      pose proof (dget_elem _ _ _ _ Hk) as Hi.
      exists (skips o (P ++ [k]) m). split.
      * apply in_map_iff. exists (k, m). split; [reflexivity|]. exact (Permutation_in _ (py_sorted_perm _ kids) Hi).
      * rewrite Forall_forall in IH. specialize (IH (k, m) Hi). cbn [snd] in IH. apply IH.
        -- intros r' a' kids' Hf'. apply (HN (k :: r') a' kids'). cbn [find]. now rewrite Hk.
        -- exists r, d. split; [assumption|]. now rewrite <- app_assoc.
Qed.
Lemma skips_dset_in : forall P d s, In s (skips_dset o P d) -> s = canonical P.
Proof.
  intros P d s H. unfold skips_dset in H. destruct (is_shared o (canonical P)); [destruct H|].
  destruct (prepare o (canonical P) d) as [[[x ax] []]|]; cbn in H; intuition.
Qed.
Lemma canonical_inj : forall p q, Forall good p -> Forall good q -> canonical p = canonical q -> p = q.
Proof. intros p q Gp Gq H. apply (f_equal words) in H. now rewrite !words_canonical in H. Qed.
Lemma find_good : forall r n, (forall q a kids, find n q = Some (Grp a kids) -> NoDup (map fst kids) /\ Forall good (map fst kids)) ->
  find n r <> None -> Forall good r.
Proof.
  induction r as [|x r IH]; intros n H Hn; [constructor|]. destruct n as [d|a kids]; cbn [find] in Hn; [congruence|].
  destruct (dget x kids) as [m|] eqn:E0; [|congruence].
  destruct (H [] a kids eq_refl) as [_ G]. constructor.
  - rewrite Forall_forall in G. apply G. apply dget_in. eauto.
  - apply (IH m); [|assumption]. intros q a' kids' Hf. apply (H (x :: q) a' kids'). cbn [find]. now rewrite E0.
Qed.
Lemma skips_nodup : forall n P, Forall good P ->
  (forall q a kids, find n q = Some (Grp a kids) -> NoDup (map fst kids) /\ Forall good (map fst kids)) ->
  NoDup (skips o P n).
Proof.
  induction n as [d|a kids IH] using tree_ind'; intros P GP HN.
  - cbn [skips]. unfold skips_dset. destruct (is_shared o (canonical P)); [constructor|].
    destruct (prepare o (canonical P) d) as [[[x ax] []]|]; repeat constructor; intros [].
  - cbn [skips]. rewrite skips_sorted. destruct (HN [] a kids eq_refl) as [N G].
    assert (HS : forall k m, In (k, m) kids -> forall q a' kids', find m q = Some (Grp a' kids') -> NoDup (map fst kids') /\ Forall good (map fst kids')).
    { intros k m Hi q a' kids' Hf. apply (HN (k :: q) a' kids'). cbn [find]. now rewrite (dget_nodup _ _ _ _ N Hi). }
    assert (N' : NoDup (map fst (sort_pairs kids))).
    { rewrite map_fst_sort. eapply Permutation_NoDup; [apply py_sorted_perm|assumption]. }
    assert (HI : forall k m, In (k, m) (sort_pairs kids) -> In (k, m) kids).
    { intros k m H. exact (Permutation_in _ (Permutation_sym (py_sorted_perm _ kids)) H). }
    rewrite Forall_forall in G.
    induction (sort_pairs kids) as [|[k m] l IHl]; [constructor|].
    cbn [map concat fst] in *. apply NoDup_cons_iff in N' as [N1 N2].
    pose proof (HI k m (or_introl eq_refl)) as Hi.
    assert (Gk : good k) by (apply G, in_map_iff; exists (k, m); auto).
    assert (A : NoDup (skips o (P ++ [k]) m)).
    { rewrite Forall_forall in IH. apply (IH (k, m) Hi); [now apply good_snoc|]. cbn [snd]. exact (HS k m Hi). }
    assert (B : NoDup (concat (map (fun '(k, m) => skips o (P ++ [k]) m) l))) by (apply IHl; [assumption|intros; apply HI; now right]).
    assert (C : forall s, In s (skips o (P ++ [k]) m) -> ~ In s (concat (map (fun '(k, m) => skips o (P ++ [k]) m) l))).
    { intros s H1 H2. apply in_concat in H2 as (l2 & H2 & H3). apply in_map_iff in H2 as ([k2 m2] & <- & H2).
      pose proof (HI k2 m2 (or_intror H2)) as Hi2.
      assert (Gk2 : good k2) by (apply G, in_map_iff; exists (k2, m2); auto).
      apply skips_in in H1 as (r1 & d1 & F1 & S1); [|intros r a' kids' Hf; exact (proj1 (HS k m Hi r a' kids' Hf))].
      apply skips_in in H3 as (r2 & d2 & F2 & S2); [|intros r a' kids' Hf; exact (proj1 (HS k2 m2 Hi2 r a' kids' Hf))].
      apply skips_dset_in in S1, S2. rewrite S1 in S2.
      apply canonical_inj in S2.
      - rewrite <- !app_assoc in S2. apply app_inv_head in S2. injection S2 as -> _.
        apply N1. apply in_map_iff. exists (k2, m2). auto.
      - apply Forall_app. split; [now apply good_snoc|]. apply (find_good r1 m (HS k m Hi)). congruence.
      - apply Forall_app. split; [now apply good_snoc|]. apply (find_good r2 m2 (HS k2 m2 Hi2)). congruence. }
    clear -A B C. induction A as [|s l1 H A IH]; [exact B|]. cbn [app]. constructor.
    + intro G. apply in_app_or in G as [G|G]; [contradiction|]. apply (C s); [now left|assumption].
    + apply IH. intros s' Hs'. apply C. now right.
Qed.
End Skips.

Theorem skipped_names : forall o t1 t2, shallow o = false -> shared o = [] ->
  to_file o = true -> skip_distributed o = true -> selections o = None ->
  TreeOK t1 -> GroupAt t1 [] -> GroupAt t2 [] -> Fresh t1 t2 ->
  (forall p d, find t1 p = Some (Dset d) -> is_dist d = false -> Feasible o p d) ->
  (forall p n, find t1 p = Some n -> AttrsFeasible o (node_attrs n)) ->
  exists c t2' names, (forall fuel, deep_group_copy o t1 [slash] t2 [slash] (c + fuel) = Some (t2', Ok names)) /\
  NoDup names /\ forall s, In s names <-> exists p d, s = canonical p /\ find t1 p = Some (Dset d) /\ is_dist d = true.
Proof.
  intros o t1 t2 HS1 HS2 HT HK HN HO HG1 HG2 HF HD HA.
  assert (GS : forall p, get_selection o p = None) by (intro p; unfold get_selection; now rewrite HN).
  assert (HP : forall p d, find t1 p = Some (Dset d) ->
     exists x ax, prepare o (canonical p) d = Ok (x, ax, is_dist d)).
  { intros p d Hf. destruct (is_dist d) eqn:ED.
    - unfold prepare. rewrite HT, HK, GS. unfold is_dist in ED. rewrite ED. cbn. eauto.
    - destruct (prepare_asked o p d (HD p d Hf ED)) as (x & Hx & _); [auto|]. eauto. }
  destruct (copy_find o t1 HO) with (t2 := t2) as (c & t2' & names & Hc & Hn & _); try assumption.
  - intros p d Hf. rewrite unshared by assumption. destruct (HP p d Hf) as (x & ax & H). eauto.
  - intros p n k v Hf Hk. exact (HA p n Hf k v Hk).
  - exists c, t2', names. split; [assumption|]. rewrite Hn. split.
    + apply skips_nodup; [constructor|]. exact HO.
    + intro s. rewrite skips_in by (intros r a kids Hf; exact (proj1 (HO r a kids Hf))). cbn [app]. split.
      * intros (p & d & Hf & Hs). exists p, d. pose proof (skips_dset_in _ _ _ _ Hs) as ->. split; [reflexivity|]. split; [assumption|].
        unfold skips_dset in Hs. rewrite unshared in Hs by assumption. destruct (HP p d Hf) as (x & ax & H). rewrite H in Hs.
        destruct (is_dist d); [reflexivity|destruct Hs].
      * intros (p & d & -> & Hf & ED). exists p, d. split; [assumption|]. unfold skips_dset. rewrite unshared by assumption.
        destruct (HP p d Hf) as (x & ax & H). rewrite H, ED. now left.
Qed.
