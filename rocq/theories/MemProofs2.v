(** The storage tree. *)
From Coq Require Import List Ascii Bool Arith Lia.
From Verif Require Import PyBase PyStr MemModel MemSpec MemProofs.
Import ListNotations.

(** *** Dictionaries *)
Section Dict.
Context {V : Type}.
Implicit Types l : list (str * V).
Lemma dget_dput_same : forall k v l, dget k (dput k v l) = Some v.
Proof.
  induction l as [|[k' v'] l IH]; cbn [dput dget]; [now rewrite seqb_refl|].
  destruct (seqb k k') eqn:E0; cbn [dget]; rewrite E0; [reflexivity|exact IH].
Qed.
Lemma dget_dput_other : forall k k' v l, k <> k' -> dget k (dput k' v l) = dget k l.
Proof.
  intros k k' v l H. induction l as [|[k1 v1] l IH]; cbn [dput dget].
  - now rewrite (proj2 (seqb_neq k k') H).
  - destruct (seqb k' k1) eqn:E0; cbn [dget].
    + apply seqb_eq in E0. subst k1. now rewrite (proj2 (seqb_neq k k') H).
    + now rewrite IH.
Qed.
Lemma dget_ddel_same : forall k l, dget k (ddel k l) = None.
Proof.
  induction l as [|[k' v'] l IH]; cbn [ddel]; [reflexivity|].
  destruct (seqb k k') eqn:E0; [exact IH|]. cbn [dget]. now rewrite E0.
Qed.
Lemma dget_ddel_other : forall k k' l, k <> k' -> dget k (ddel k' l) = dget k l.
Proof.
  intros k k' l H. induction l as [|[k1 v1] l IH]; cbn [ddel dget]; [reflexivity|].
  destruct (seqb k' k1) eqn:E0.
  - apply seqb_eq in E0. subst k1. now rewrite IH, (proj2 (seqb_neq k k') H).
  - cbn [dget]. now rewrite IH.
Qed.
Lemma dput_dput : forall k v v' l, dput k v' (dput k v l) = dput k v' l.
Proof.
  induction l as [|[k1 v1] l IH]; cbn [dput]; [now rewrite seqb_refl|].
  destruct (seqb k k1) eqn:E0; cbn [dput]; rewrite E0; [reflexivity|now rewrite IH].
Qed.
End Dict.

(** *** Prefixes *)
Lemma prefix_app : forall p q r, prefix (p ++ q) (p ++ r) = prefix q r.
Proof. induction p as [|x p IH]; intros q r; cbn [app prefix]; [reflexivity|]. now rewrite seqb_refl, IH. Qed.
Lemma prefix_spec : forall p q, prefix p q = true <-> exists r, q = p ++ r.
Proof.
  induction p as [|x p IH]; intros q; cbn [prefix].
  - split; [exists q; reflexivity|reflexivity].
  - destruct q as [|y q]; [split; [discriminate|intros (r & H); discriminate]|].
    rewrite andb_true_iff, seqb_eq, IH. split.
    + intros (-> & r & ->). exists r. reflexivity.
    + intros (r & H). injection H as -> ->. split; [reflexivity|exists r; reflexivity].
Qed.
Lemma prefix_refl : forall p, prefix p p = true.
Proof. intro p. apply prefix_spec. exists []. now rewrite app_nil_r. Qed.

Lemma existsb_seq_shift : forall f n, existsb f (seq 0 (S n)) = f 0 || existsb (fun k => f (S k)) (seq 0 n).
Proof.
  intros f n. cbn [seq existsb]. f_equal. rewrite <- seq_shift.
  induction (seq 0 n) as [|x l IH]; [reflexivity|]. cbn. now rewrite IH.
Qed.
Lemma existsb_ext : forall A (f g : A -> bool) l, (forall x, f x = g x) -> existsb f l = existsb g l.
Proof. intros A f g l H. induction l as [|x l IH]; [reflexivity|]. cbn. now rewrite H, IH. Qed.
Lemma existsb_none : forall A (f : A -> bool) l, (forall x, f x = false) -> existsb f l = false.
Proof. intros A f l H. induction l as [|x l IH]; [reflexivity|]. cbn. now rewrite H, IH. Qed.

Section Tree.
Context {D V : Type}.
Notation node := (node D V).
Implicit Types t n : node.

Definition is_grp n : Prop := exists a kids, n = Grp a kids.

(** *** Looking up *)
Lemma root_getitem_words : forall t key, absolute key -> root_getitem t key = crawl t (words key).
Proof.
  intros t key H. unfold root_getitem.
  assert (Hs : existsb (ceqb slash) key = true).
  { apply existsb_ceqb. destruct H as (r & ->). left. reflexivity. }
  rewrite Hs. cbn [negb]. rewrite format_canonical by assumption. cbn [rbind].
  rewrite canonical_root by apply words_good.
  destruct (words key) as [|w ws] eqn:E0; [reflexivity|].
  rewrite split_canonical; [reflexivity|discriminate|]. rewrite <- E0. apply words_good.
Qed.
Lemma root_loc_words : forall key, absolute key -> root_loc key = words key.
Proof.
  intros key H. unfold root_loc.
  assert (Hs : existsb (ceqb slash) key = true).
  { apply existsb_ceqb. destruct H as (r & ->). left. reflexivity. }
  rewrite Hs. cbn [negb]. rewrite format_canonical by assumption.
  rewrite canonical_root by apply words_good.
  destruct (words key) as [|w ws] eqn:E0; [reflexivity|].
  rewrite split_canonical; [reflexivity|discriminate|]. rewrite <- E0. apply words_good.
Qed.
Lemma target_good : forall self name, absolute self -> Forall good (target self name).
Proof. intros. rewrite <- words_path_join by assumption. apply words_good. Qed.
Lemma getitem_target : forall t self name, absolute self ->
  getitem t self name = rbind (crawl t (target self name)) (fun out => Ok (canonical (target self name), out)).
Proof.
  intros t self name H. unfold getitem. rewrite format_canonical by now apply path_join_absolute.
  cbn [rbind]. rewrite root_getitem_words by apply canonical_absolute.
  rewrite words_canonical by apply words_good. now rewrite words_path_join.
Qed.

Lemma crawl_app : forall p q n, crawl n (p ++ q) = rbind (crawl n p) (fun m => crawl m q).
Proof.
  induction p as [|x p IH]; intros q n; [reflexivity|]. cbn [app crawl].
  destruct n as [d|a kids]; [reflexivity|]. destruct (dget x kids); [apply IH|reflexivity].
Qed.

(** What is at a path: a dataset, or a group with its attributes. *)
Definition peek n (q : list str) : res (D + list (str * V)) :=
  match crawl n q with
  | Ok (Dset d) => Ok (inl d)
  | Ok (Grp a _) => Ok (inr a)
  | Err e => Err e
  end.
Lemma peek_app : forall p q n, peek n (p ++ q) = rbind (crawl n p) (fun m => peek m q).
Proof.
  intros p q n. unfold peek. rewrite crawl_app. destruct (crawl n p); reflexivity.
Qed.
Definition forget (r : res (D + list (str * V))) : option (entry D) :=
  match r with
  | Ok (inl d) => Some (EData d)
  | Ok (inr _) => Some EGroup
  | Err _ => None
  end.
Definition abstract n : state D := fun q => forget (peek n q).

Lemma crawl_update : forall loc n f a kids q, crawl n loc = Ok (Grp a kids) ->
  crawl (update_at n loc f) (loc ++ q) = crawl (Grp a (f kids)) q.
Proof.
  induction loc as [|p loc IH]; intros n f a kids q H; cbn [crawl] in H.
  - injection H as ->. reflexivity.
  - destruct n as [d|a0 kids0]; [discriminate|]. cbn [update_at].
    destruct (dget p kids0) as [m|] eqn:E0; [|discriminate]. cbn [app crawl].
    rewrite dget_dput_same. now apply IH.
Qed.
Lemma peek_update : forall loc n f a kids q, crawl n loc = Ok (Grp a kids) ->
  peek (update_at n loc f) q =
  if prefix loc q then peek (Grp a (f kids)) (skipn (length loc) q) else peek n q.
Proof.
  induction loc as [|p loc IH]; intros n f a kids q H; cbn [crawl] in H.
  - injection H as ->. reflexivity.
  - destruct n as [d|a0 kids0]; [discriminate|]. cbn [update_at].
    destruct (dget p kids0) as [m|] eqn:E0; [|discriminate].
    destruct q as [|x q]; [reflexivity|]. cbn [prefix length skipn].
    unfold peek at 1. cbn [crawl]. destruct (seqb p x) eqn:E1.
    + apply seqb_eq in E1. subst x. rewrite dget_dput_same. cbn [andb].
      change (peek (update_at m loc f) q = if prefix loc q then peek (Grp a (f kids)) (skipn (length loc) q)
               else peek (Grp a0 kids0) (p :: q)).
      rewrite (IH m f a kids q H). destruct (prefix loc q); [reflexivity|].
      unfold peek at 2. cbn [crawl]. now rewrite E0.
    + cbn [andb]. rewrite dget_dput_other by (apply seqb_neq in E1; congruence). reflexivity.
Qed.
Lemma update_at_app : forall loc n f m1 c ms g a kids, crawl n loc = Ok (Grp a kids) ->
  f = dput m1 c ->
  update_at (update_at n loc f) (loc ++ m1 :: ms) g = update_at n loc (dput m1 (update_at c ms g)).
Proof.
  induction loc as [|p loc IH]; intros n f m1 c ms g a kids H ->; cbn [crawl] in H.
  - injection H as ->. cbn [update_at app]. rewrite dget_dput_same. now rewrite dput_dput.
  - destruct n as [d|a0 kids0]; [discriminate|]. cbn [update_at app].
    destruct (dget p kids0) as [m|] eqn:E0; [|discriminate]. cbn [update_at].
    rewrite dget_dput_same, dput_dput. erewrite IH; eauto.
Qed.
Lemma is_grp_update : forall loc n f, is_grp n -> is_grp (update_at n loc f).
Proof.
  intros loc n f (a & kids & ->). destruct loc as [|p loc]; cbn [update_at]; [eexists; eexists; reflexivity|].
  destruct (dget p kids); eexists; eexists; reflexivity.
Qed.

(** *** Errors of a lookup *)
Lemma crawl_peek_err : forall n q e, crawl n q = Err e <-> peek n q = Err e.
Proof. intros n q e. unfold peek. destruct (crawl n q) as [[d|a kids]|e']; split; congruence. Qed.

Lemma blocked_ext : forall s s' p, (forall q, s q = s' q) -> @blocked D s p = blocked s' p.
Proof. intros s s' p H. apply existsb_ext. intro k. now rewrite H. Qed.

Lemma peek_err : forall q n e, peek n q = Err e -> e = missing (abstract n) q.
Proof.
  intros q n e H. apply crawl_peek_err in H. revert n e H.
  induction q as [|x q IH]; intros n e H; cbn [crawl] in H; [discriminate|].
  unfold missing, blocked. cbn [length]. rewrite existsb_seq_shift. cbn [firstn].
  destruct n as [d|a kids].
  - injection H as <-. reflexivity.
  - change (abstract (Grp a kids) []) with (Some (@EGroup D)). cbn [orb].
    destruct (dget x kids) as [m|] eqn:E0.
    + rewrite (IH m e H). unfold missing, blocked. erewrite existsb_ext; [reflexivity|].
      intro k. cbn beta. unfold abstract, peek. cbn [crawl]. rewrite E0. reflexivity.
    + injection H as <-. rewrite existsb_none; [reflexivity|].
      intro k. cbn beta. unfold abstract, peek. cbn [crawl]. now rewrite E0.
Qed.
Lemma abstract_none : forall n q, abstract n q = None -> crawl n q = Err (missing (abstract n) q).
Proof.
  intros n q H. unfold abstract in H. destruct (peek n q) as [[d|a]|e] eqn:E0; try discriminate.
  pose proof (peek_err _ _ _ E0) as ->. now apply crawl_peek_err.
Qed.
Lemma abstract_group : forall n q, abstract n q = Some EGroup -> exists a kids, crawl n q = Ok (Grp a kids).
Proof.
  intros n q H. unfold abstract, peek in H. destruct (crawl n q) as [[d|a kids]|e]; try discriminate. eauto.
Qed.
Lemma abstract_data : forall n q d, abstract n q = Some (EData d) -> crawl n q = Ok (Dset d).
Proof.
  intros n q d H. unfold abstract, peek in H. destruct (crawl n q) as [[d'|a kids]|e]; try discriminate.
  cbn in H. congruence.
Qed.

(** *** create_group *)
Fixpoint chain (ms : list str) : node :=
  match ms with
  | [] => Grp [] []
  | m :: ms => Grp [] [(m, chain ms)]
  end.
Lemma crawl_chain_long : forall ms w, length ms < length w -> crawl (chain ms) w = Err KeyError.
Proof.
  induction ms as [|m ms IH]; intros [|x w] H; cbn [length] in H; try lia; cbn [chain crawl dget]; [reflexivity|].
  destruct (seqb x m); [apply IH; lia|reflexivity].
Qed.
Lemma update_chain : forall ms x, update_at (chain ms) ms (dput x (Grp [] [])) = chain (ms ++ [x]).
Proof.
  induction ms as [|m ms IH]; intro x; [reflexivity|]. cbn [chain update_at dget app]. rewrite seqb_refl.
  cbn [dput]. now rewrite seqb_refl, IH.
Qed.
Lemma peek_chain : forall ms r, peek (chain ms) r = if prefix r ms then Ok (inr []) else Err KeyError.
Proof.
  induction ms as [|m ms IH]; intros [|x r]; cbn [prefix]; try reflexivity.
  unfold peek. cbn [chain crawl dget]. destruct (seqb x m); [|reflexivity]. apply IH.
Qed.
Fixpoint dbl (ms : list str) : list str :=
  match ms with [] => [] | m :: ms => m :: m :: dbl ms end.
Lemma dbl_snoc : forall ms x, dbl (ms ++ [x]) = dbl ms ++ [x; x].
Proof. induction ms as [|m ms IH]; intro x; [reflexivity|]. cbn [app dbl]. now rewrite IH. Qed.
Lemma dbl_good : forall ms, Forall good ms -> Forall good (dbl ms).
Proof. induction 1; cbn [dbl]; [constructor|]. constructor; [assumption|]. constructor; assumption. Qed.
Lemma good_snoc : forall ms x, Forall good ms -> good x -> Forall good (ms ++ [x]).
Proof. intros. apply Forall_app. split; [assumption|]. now constructor; [|constructor]. Qed.

Lemma create_loop_new : forall rest ms done m1 t a kids,
  crawl t done = Ok (Grp a kids) ->
  Forall good done -> good m1 -> Forall good ms -> Forall good rest ->
  create_loop rest (canonical (done ++ dbl (m1 :: ms))) (done ++ m1 :: ms)
              (update_at t done (dput m1 (chain ms)))
  = (update_at t done (dput m1 (chain (ms ++ rest))), Ok tt).
Proof.
  induction rest as [|x rest IH]; intros ms done m1 t a kids Hc Gd G1 Gm Gr; cbn [create_loop].
  - now rewrite app_nil_r.
  - pose proof (Forall_inv Gr) as Gx. pose proof (Forall_inv_tail Gr) as Gr'.
    assert (Gdb : Forall good (done ++ dbl (m1 :: ms))).
    { apply Forall_app. split; [assumption|]. apply dbl_good. now constructor. }
    rewrite path_join_canonical by assumption.
    rewrite root_getitem_words by apply canonical_absolute.
    rewrite words_canonical by now apply good_snoc.
    assert (HE : crawl (update_at t done (dput m1 (chain ms))) ((done ++ dbl (m1 :: ms)) ++ [x]) = Err KeyError).
    { rewrite <- app_assoc. rewrite (crawl_update _ _ _ _ _ _ Hc). cbn [dbl app].
      change (match dget m1 (dput m1 (chain ms) kids) with
              | Some m => crawl m (m1 :: dbl ms ++ [x]) | None => Err KeyError end = Err KeyError).
      rewrite dget_dput_same. apply crawl_chain_long. cbn [length]. rewrite app_length.
      assert (length (dbl ms) = 2 * length ms) by (clear; induction ms; cbn; lia). cbn. lia. }
    rewrite HE. rewrite path_join_canonical by (try assumption; now apply good_snoc).
    rewrite (update_at_app _ _ _ _ _ _ _ _ _ Hc eq_refl). rewrite update_chain.
    replace (((done ++ dbl (m1 :: ms)) ++ [x]) ++ [x]) with (done ++ dbl (m1 :: ms ++ [x])).
    2:{ rewrite <- !app_assoc. f_equal. cbn [dbl app]. rewrite dbl_snoc. reflexivity. }
    replace ((done ++ m1 :: ms) ++ [x]) with (done ++ m1 :: (ms ++ [x])) by now rewrite <- app_assoc.
    rewrite (IH _ _ _ _ _ _ Hc) by (try assumption; now apply good_snoc).
    now rewrite <- app_assoc.
Qed.

Lemma create_loop_old : forall d2 d1 x ms t a kids,
  crawl t (d1 ++ d2) = Ok (Grp a kids) -> dget x kids = None ->
  Forall good d1 -> Forall good d2 -> good x -> Forall good ms ->
  create_loop (d2 ++ x :: ms) (canonical d1) d1 t =
    (update_at t (d1 ++ d2) (dput x (chain ms)), Ok tt).
Proof.
  induction d2 as [|y d2 IH]; intros d1 x ms t a kids Hc Hx G1 G2 Gx Gm.
  - rewrite app_nil_r in *. cbn [app create_loop].
    rewrite path_join_canonical by assumption.
    rewrite root_getitem_words by apply canonical_absolute.
    rewrite words_canonical by now apply good_snoc.
    rewrite crawl_app, Hc. cbn [rbind crawl]. rewrite Hx.
    rewrite path_join_canonical by (try assumption; now apply good_snoc).
    replace ((d1 ++ [x]) ++ [x]) with (d1 ++ dbl [x]) by (now rewrite <- app_assoc).
    change (Grp [] []) with (chain []). change (d1 ++ [x]) with (d1 ++ x :: []).
    rewrite (create_loop_new ms [] d1 x t a kids Hc) by (try assumption; constructor). reflexivity.
  - pose proof (Forall_inv G2) as Gy. pose proof (Forall_inv_tail G2) as G2'.
    cbn [app create_loop]. rewrite path_join_canonical by assumption.
    rewrite root_getitem_words by apply canonical_absolute.
    rewrite words_canonical by now apply good_snoc.
    assert (HG : exists a' kids', crawl t (d1 ++ [y]) = Ok (Grp a' kids')).
    { replace (d1 ++ y :: d2) with ((d1 ++ [y]) ++ d2) in Hc by (now rewrite <- app_assoc).
      rewrite crawl_app in Hc. destruct (crawl t (d1 ++ [y])) as [[d|a' k']|e]; cbn [rbind] in Hc.
      - destruct d2; cbn in Hc; discriminate.
      - eauto.
      - discriminate. }
    destruct HG as (a' & kids' & HG). rewrite HG.
    rewrite root_loc_words by apply canonical_absolute.
    rewrite words_canonical by now apply good_snoc.
    replace (d1 ++ y :: d2) with ((d1 ++ [y]) ++ d2) in * by (now rewrite <- app_assoc).
    apply (IH _ _ _ _ a kids); auto. now apply good_snoc.
Qed.

Lemma first_missing : forall p t, crawl t p = Err KeyError ->
  exists done x ms a kids, p = done ++ x :: ms /\ crawl t done = Ok (Grp a kids) /\ dget x kids = None.
Proof.
  induction p as [|y p IH]; intros t H; cbn [crawl] in H; [discriminate|].
  destruct t as [d|a kids]; [discriminate|]. destruct (dget y kids) as [m|] eqn:E0.
  - destruct (IH m H) as (done & x & ms & a' & k' & -> & H1 & H2).
    exists (y :: done), x, ms, a', k'. split; [reflexivity|]. split; [|exact H2]. cbn [crawl]. now rewrite E0.
  - exists [], y, p, a, kids. auto.
Qed.

Lemma missing_key : forall s p, @missing D s p = KeyError <-> blocked s p = false.
Proof. intros s p. unfold missing. destruct (blocked s p); split; congruence. Qed.
Lemma missing_index : forall s p, @missing D s p = IndexError <-> blocked s p = true.
Proof. intros s p. unfold missing. destruct (blocked s p); split; congruence. Qed.

Theorem create_group_ok : forall t self name, absolute self -> is_grp t ->
  let p := target self name in
  let '(t', r) := create_group t self name in
  is_grp t' /\ outcome r = snd (s_create_group (abstract t) p) /\
  (forall q, abstract t' q = fst (s_create_group (abstract t) p) q) /\
  (forall g, r = Ok g -> g = canonical p).
Proof.
  intros t self name Ha Hg p. unfold create_group.
  pose proof (target_good self name Ha) as Gp. fold p in Gp.
  rewrite format_canonical by now apply path_join_absolute.
  rewrite words_path_join by assumption. fold p.
  rewrite getitem_target by assumption. fold p.
  unfold s_create_group. destruct (abstract t p) as [en|] eqn:EA.
  - assert (HC : exists m, crawl t p = Ok m).
    { unfold abstract, peek in EA. destruct (crawl t p) as [m|e]; [eauto|discriminate]. }
    destruct HC as (m & HC). rewrite HC. cbn [rbind fst snd outcome].
    split; [assumption|]. split; [reflexivity|]. split; [reflexivity|discriminate].
  - pose proof (abstract_none t p EA) as HC. rewrite HC. cbn [rbind].
    destruct (blocked (abstract t) p) eqn:EB.
    + rewrite (proj2 (missing_index _ _) EB). cbn. split; [assumption|].
      split; [reflexivity|]. split; [reflexivity|discriminate].
    + rewrite (proj2 (missing_key _ _) EB) in *. clear EB.
      destruct (first_missing p t HC) as (done & x & ms & a & kids & Hp & HD & HX).
      assert (Gs : Forall good (done ++ x :: ms)) by now rewrite <- Hp.
      apply Forall_app in Gs as [Gd Gs]. pose proof (Forall_inv Gs) as Gx. pose proof (Forall_inv_tail Gs) as Gm.
      rewrite split_canonical; [|rewrite Hp; now destruct done|assumption].
      cbn [create_loop]. change (path_join [slash] []) with (canonical []).
      rewrite root_getitem_words by apply canonical_absolute. cbn [words words_from app crawl].
      change (crawl t (words (canonical []))) with (@Ok node t).
      destruct Hg as (ra & rk & ->).
      rewrite root_loc_words by apply canonical_absolute. change (words (canonical [])) with (@nil str).
      rewrite Hp. rewrite (create_loop_old done [] x ms _ a kids) by (try assumption; constructor).
      cbn [app].
      set (t' := update_at (Grp ra rk) done (dput x (chain ms))).
      assert (HP : forall q, peek t' q = if prefix done q then peek (Grp a (dput x (chain ms) kids)) (skipn (length done) q) else peek (Grp ra rk) q).
      { intro q. subst t'. now apply peek_update. }
      split; [apply is_grp_update; eexists; eexists; reflexivity|].
      rewrite getitem_target by assumption. fold p. rewrite Hp.
      assert (HT : exists m, crawl t' (done ++ x :: ms) = Ok m).
      { specialize (HP (done ++ x :: ms)).
        assert (E1 : prefix done (done ++ x :: ms) = true) by (apply prefix_spec; eauto).
        rewrite E1, skipn_app, skipn_all, Nat.sub_diag in HP. cbn [app skipn] in HP.
        unfold peek at 2 in HP. cbn [crawl] in HP. rewrite dget_dput_same in HP.
        fold (peek (chain ms) ms) in HP. rewrite peek_chain, prefix_refl in HP.
        unfold peek in HP. destruct (crawl t' (done ++ x :: ms)) as [m|e]; [eauto|discriminate]. }
      destruct HT as (m & HT). rewrite HT. cbn [rbind outcome fst snd].
      split; [reflexivity|]. split; [|intros g H; injection H as <-; reflexivity].
      intro q. unfold abstract at 1. rewrite HP. unfold with_groups.
      destruct (prefix done q) eqn:EQ.
      * apply prefix_spec in EQ as (r & ->). rewrite skipn_app, skipn_all, Nat.sub_diag. cbn [app skipn].
        rewrite prefix_app. unfold abstract. rewrite peek_app, HD. cbn [rbind].
        destruct r as [|y r]; [reflexivity|]. cbn [prefix].
        unfold peek at 1. cbn [crawl]. destruct (seqb y x) eqn:EY.
        -- apply seqb_eq in EY. subst y. rewrite dget_dput_same. fold (peek (chain ms) r).
           rewrite peek_chain. unfold peek. cbn [crawl]. rewrite HX. cbn [forget andb]. destruct (prefix r ms); reflexivity.
        -- rewrite dget_dput_other by now apply seqb_neq. reflexivity.
      * unfold abstract. destruct (prefix q (done ++ x :: ms)) eqn:EQ2; [|reflexivity].
        (* a strict prefix of the part that existed *)
        apply prefix_spec in EQ2 as (r & Hr).
        assert (Hlt : exists r', done = q ++ r').
        { assert (~ exists r', q = done ++ r') by (rewrite <- prefix_spec; congruence).
          revert q r Hr H EQ. clear. induction done as [|z done IH]; intros q r Hr Hn _.
          - exfalso. apply Hn. exists q. reflexivity.
          - destruct q as [|w q]; [exists (z :: done); reflexivity|]. cbn in Hr. injection Hr as <- Hr.
            destruct (IH q r Hr) as (r' & ->).
            + intros (r' & ->). apply Hn. exists r'. reflexivity.
            + destruct (prefix done q) eqn:E0; [|reflexivity]. exfalso. apply prefix_spec in E0 as (r' & ->).
              apply Hn. exists r'. reflexivity.
            + exists r'. reflexivity. }
        destruct Hlt as (r' & ->). rewrite crawl_app in HD. unfold peek.
        destruct (crawl (Grp ra rk) q) as [[d|a' k']|e]; try reflexivity. cbn [rbind] in HD. discriminate.
Qed.

Theorem require_group_ok : forall t self name, absolute self -> is_grp t ->
  let p := target self name in
  let '(t', r) := require_group t self name in
  is_grp t' /\ outcome r = snd (s_require_group (abstract t) p) /\
  (forall q, abstract t' q = fst (s_require_group (abstract t) p) q) /\
  (forall g, r = Ok g -> g = canonical p).
Proof.
  intros t self name Ha Hg p. unfold require_group. rewrite getitem_target by assumption. fold p.
  unfold s_require_group. destruct (abstract t p) as [[|d]|] eqn:EA.
  - destruct (abstract_group _ _ EA) as (a & kids & ->). cbn.
    split; [assumption|]. split; [reflexivity|]. split; [reflexivity|]. intros g H. now injection H as <-.
  - rewrite (abstract_data _ _ _ EA). cbn. split; [assumption|]. split; [reflexivity|]. split; [reflexivity|discriminate].
  - rewrite (abstract_none _ _ EA). cbn [rbind].
    pose proof (create_group_ok t self name Ha Hg) as HC. cbn zeta in HC. fold p in HC.
    unfold missing. destruct (blocked (abstract t) p) eqn:EB.
    + cbn. unfold s_create_group. rewrite EA, EB. cbn. split; [assumption|].
      split; [reflexivity|]. split; [reflexivity|discriminate].
    + exact HC.
Qed.

(** *** Datasets *)
Lemma s_require_ext : forall s s' p, (forall q, s q = s' q) ->
  snd (@s_require_group D s p) = snd (s_require_group s' p) /\
  forall q, fst (s_require_group s p) q = fst (s_require_group s' p) q.
Proof.
  intros s s' p H. unfold s_require_group, s_create_group. rewrite H, (blocked_ext s s' p H).
  destruct (s' p) as [[|d]|]; [split; auto|split; auto|].
  destruct (blocked s' p); split; auto. intro q. cbn. unfold with_groups. now rewrite H.
Qed.

Lemma require_group_exists : forall t self name t' g, absolute self -> is_grp t ->
  require_group t self name = (t', Ok g) -> exists a kids, crawl t' (target self name) = Ok (Grp a kids).
Proof.
  intros t self name t' g Ha Hg H. pose proof (require_group_ok t self name Ha Hg) as R. rewrite H in R.
  cbn zeta in R. destruct R as (_ & R1 & R2 & _). apply abstract_group. rewrite R2.
  unfold s_require_group, s_create_group in *.
  destruct (abstract t (target self name)) as [[|d]|] eqn:EA; cbn in *; [exact EA|discriminate|].
  destruct (blocked (abstract t) (target self name)); cbn in *; [discriminate|].
  unfold with_groups. rewrite prefix_refl. now rewrite EA.
Qed.

Lemma removelast_snoc : forall A (l : list A) x, removelast (l ++ [x]) = l.
Proof. intros. rewrite removelast_app by discriminate. apply app_nil_r. Qed.

Theorem create_dataset_ok : forall t self name d, absolute self -> plain_end name -> is_grp t ->
  let p := target self name in
  let '(t', r) := create_dataset t self name d in
  is_grp t' /\ outcome r = snd (s_create_dataset (abstract t) p d) /\
  (forall q, abstract t' q = fst (s_create_dataset (abstract t) p d) q) /\
  (forall x, r = Ok x -> x = (canonical p, Dset d)).
Proof.
  intros t self name d Ha Hn Hg p. unfold create_dataset.
  destruct (path_split_spec (path_join self name)) as (h & b & HS & Hh & Hb & HW);
    [now apply path_join_absolute|now apply path_join_plain|].
  rewrite HS. rewrite words_path_join in HW by assumption. fold p in HW.
  rewrite format_canonical by assumption.
  pose proof (words_good h) as Gh.
  assert (HT : target self (canonical (words h)) = words h).
  { rewrite target_absolute by apply canonical_absolute. now apply words_canonical. }
  pose proof (require_group_ok t self (canonical (words h)) Ha Hg) as R. cbn zeta in R. rewrite HT in R.
  unfold s_create_dataset. rewrite HW, removelast_snoc.
  destruct (require_group t self (canonical (words h))) as [t1 r1] eqn:ER.
  destruct R as (R0 & R1 & R2 & R3).
  destruct (s_require_group (abstract t) (words h)) as [s1 o1]. cbn [fst snd] in R1, R2.
  destruct r1 as [g|e]; cbn [outcome] in R1; subst o1.
  2:{ split; [assumption|]. split; [reflexivity|]. split; [assumption|discriminate]. }
  specialize (R3 g eq_refl). subst g.
  destruct (require_group_exists t self _ t1 _ Ha Hg ER) as (a & kids & HC). rewrite HT in HC.
  rewrite root_loc_words by apply canonical_absolute. rewrite words_canonical by assumption.
  set (t' := update_at t1 (words h) (dput b (Dset d))).
  assert (HP : forall q, peek t' q = if prefix (words h) q then peek (Grp a (dput b (Dset d) kids)) (skipn (length (words h)) q) else peek t1 q).
  { intro q. now apply peek_update. }
  split; [now apply is_grp_update|].
  rewrite getitem_target by assumption.
  rewrite path_join_canonical by assumption.
  rewrite target_absolute by apply canonical_absolute.
  rewrite words_canonical by now apply good_snoc.
  assert (HD : crawl t' (words h ++ [b]) = Ok (Dset d)).
  { unfold t'. rewrite (crawl_update _ _ _ _ _ _ HC). cbn [crawl]. now rewrite dget_dput_same. }
  rewrite HD. cbn [rbind outcome fst snd].
  split; [reflexivity|]. split; [|intros x H; injection H as <-; reflexivity].
  intro q. unfold abstract. rewrite HP. unfold with_data.
  destruct (prefix (words h) q) eqn:EQ.
  - apply prefix_spec in EQ as (r & ->). rewrite skipn_app, skipn_all, Nat.sub_diag. cbn [app skipn].
    rewrite !prefix_app.
    destruct r as [|y r].
    + cbn [prefix]. rewrite <- R2. unfold abstract. rewrite app_nil_r. unfold peek. now rewrite HC.
    + cbn [prefix]. unfold peek. cbn [crawl]. destruct (seqb b y) eqn:EY.
      * apply seqb_eq in EY. subst y. rewrite seqb_refl, dget_dput_same. cbn [andb].
        destruct r as [|z r]; reflexivity.
      * cbn [andb]. rewrite dget_dput_other by (apply seqb_neq in EY; congruence).
        rewrite <- R2. unfold abstract. rewrite peek_app, HC. reflexivity.
  - replace (prefix (words h ++ [b]) q) with false; [apply R2|].
    symmetry. destruct (prefix (words h ++ [b]) q) eqn:E2; [|reflexivity].
    apply prefix_spec in E2 as (r & ->). rewrite <- app_assoc in EQ.
    rewrite (proj2 (prefix_spec (words h) _)) in EQ by eauto. discriminate.
Qed.

Theorem require_dataset_ok : forall t self name d, absolute self -> plain_end name -> is_grp t ->
  let p := target self name in
  let '(t', r) := require_dataset t self name d in
  is_grp t' /\ outcome r = snd (s_require_dataset (abstract t) p d) /\
  (forall q, abstract t' q = fst (s_require_dataset (abstract t) p d) q).
Proof.
  intros t self name d Ha Hn Hg p. unfold require_dataset. rewrite getitem_target by assumption. fold p.
  unfold s_require_dataset. destruct (abstract t p) as [[|d']|] eqn:EA.
  - destruct (abstract_group _ _ EA) as (a & kids & ->). cbn. auto.
  - rewrite (abstract_data _ _ _ EA). cbn. auto.
  - rewrite (abstract_none _ _ EA). cbn [rbind]. unfold missing.
    destruct (blocked (abstract t) p) eqn:EB; [cbn; auto|].
    pose proof (create_dataset_ok t self name d Ha Hn Hg) as HC. cbn zeta in HC. fold p in HC.
    destruct (create_dataset t self name d) as [t' r]. destruct HC as (H1 & H2 & H3 & _). auto.
Qed.

(** *** Deletion *)
Theorem delitem_ok : forall t self name, absolute self -> plain_end name -> is_grp t ->
  let p := target self name in
  let '(t', r) := delitem t self name in
  is_grp t' /\ outcome r = snd (s_delete (abstract t) p) /\
  (forall q, abstract t' q = fst (s_delete (abstract t) p) q).
Proof.
  intros t self name Ha Hn Hg p. unfold delitem. rewrite getitem_target by assumption. fold p.
  unfold s_delete. destruct (abstract t p) as [en|] eqn:EA.
  2:{ rewrite (abstract_none _ _ EA). cbn. auto. }
  assert (HC : exists m, crawl t p = Ok m).
  { unfold abstract, peek in EA. destruct (crawl t p) as [m|e]; [eauto|discriminate]. }
  destruct HC as (m & HC). rewrite HC. cbn [rbind].
  destruct (path_split_spec (path_join self name)) as (h & b & HS & Hh & Hb & HW);
    [now apply path_join_absolute|now apply path_join_plain|].
  rewrite HS. rewrite words_path_join in HW by assumption. fold p in HW.
  rewrite root_getitem_words by assumption.
  rewrite HW, crawl_app in HC. destruct (crawl t (words h)) as [[d|a kids]|e] eqn:EH; cbn [rbind crawl] in HC; try discriminate.
  destruct (dget b kids) as [mm|] eqn:EB; [|discriminate].
  rewrite root_loc_words by assumption.
  split; [now apply is_grp_update|]. split; [reflexivity|]. cbn [fst].
  intro q. unfold abstract at 1. rewrite (peek_update _ _ _ _ _ q EH). unfold without. rewrite HW.
  destruct (prefix (words h) q) eqn:EQ.
  - apply prefix_spec in EQ as (r & ->). rewrite skipn_app, skipn_all, Nat.sub_diag. cbn [app skipn].
    rewrite prefix_app. unfold abstract. rewrite peek_app, EH. cbn [rbind].
    destruct r as [|y r]; [reflexivity|]. cbn [prefix]. unfold peek. cbn [crawl].
    destruct (seqb b y) eqn:EY.
    + apply seqb_eq in EY. subst y. rewrite dget_ddel_same. destruct r; reflexivity.
    + rewrite dget_ddel_other by (apply seqb_neq in EY; congruence). reflexivity.
  - replace (prefix (words h ++ [b]) q) with false; [reflexivity|].
    symmetry. destruct (prefix (words h ++ [b]) q) eqn:E2; [|reflexivity].
    apply prefix_spec in E2 as (r & ->). rewrite <- app_assoc in EQ.
    rewrite (proj2 (prefix_spec (words h) _)) in EQ by eauto. discriminate.
Qed.

(** *** Histories *)
Lemma s_create_group_ext : forall s s' p, (forall q, s q = s' q) ->
  snd (@s_create_group D s p) = snd (s_create_group s' p) /\
  forall q, fst (s_create_group s p) q = fst (s_create_group s' p) q.
Proof.
  intros s s' p H. unfold s_create_group. rewrite H, (blocked_ext s s' p H).
  destruct (s' p) as [x|]; [split; auto|].
  destruct (blocked s' p); split; auto. intro q. cbn. unfold with_groups. now rewrite H.
Qed.
Lemma s_create_dataset_ext : forall s s' p d, (forall q, s q = s' q) ->
  snd (@s_create_dataset D s p d) = snd (s_create_dataset s' p d) /\
  forall q, fst (s_create_dataset s p d) q = fst (s_create_dataset s' p d) q.
Proof.
  intros s s' p d H. unfold s_create_dataset.
  destruct (s_require_ext s s' (removelast p) H) as [H1 H2].
  destruct (s_require_group s (removelast p)) as [s1 o1], (s_require_group s' (removelast p)) as [s2 o2].
  cbn [fst snd] in *. subst o2. destruct o1; cbn [fst snd]; split; auto.
  intro q. unfold with_data. now rewrite H2.
Qed.
Lemma s_call_ext : forall s s' c, (forall q, s q = s' q) ->
  snd (@s_call D s c) = snd (s_call s' c) /\ forall q, fst (s_call s c) q = fst (s_call s' c) q.
Proof.
  intros s s' c H. destruct c as [g n|g n|g n d|g n d|g n]; cbn [s_call].
  - now apply s_create_group_ext.
  - now apply s_require_ext.
  - now apply s_create_dataset_ext.
  - unfold s_require_dataset. rewrite H, (blocked_ext s s' _ H). destruct (s' (target g n)) as [[|x]|]; auto.
    destruct (blocked s' (target g n)); auto. now apply s_create_dataset_ext.
  - unfold s_delete, missing. rewrite H, (blocked_ext s s' _ H). destruct (s' (target g n)); cbn; split; auto.
    intro q. unfold without. now rewrite H.
Qed.

Lemma run_call_ok : forall t c, is_grp t -> proper c ->
  is_grp (fst (run_call t c)) /\ snd (run_call t c) = snd (s_call (abstract t) c) /\
  forall q, abstract (fst (run_call t c)) q = fst (s_call (abstract t) c) q.
Proof.
  intros t c Hg Hp. destruct c as [g n|g n|g n d|g n d|g n]; cbn [run_call s_call proper] in *.
  - pose proof (create_group_ok t g n Hp Hg) as H. cbn zeta in H. destruct (create_group t g n) as [t' r]. tauto.
  - pose proof (require_group_ok t g n Hp Hg) as H. cbn zeta in H. destruct (require_group t g n) as [t' r]. tauto.
  - destruct Hp as [Hp1 Hp2]. pose proof (create_dataset_ok t g n d Hp1 Hp2 Hg) as H. cbn zeta in H.
    destruct (create_dataset t g n d) as [t' r]. tauto.
  - destruct Hp as [Hp1 Hp2]. pose proof (require_dataset_ok t g n d Hp1 Hp2 Hg) as H. cbn zeta in H.
    destruct (require_dataset t g n d) as [t' r]. tauto.
  - destruct Hp as [Hp1 Hp2]. pose proof (delitem_ok t g n Hp1 Hp2 Hg) as H. cbn zeta in H.
    destruct (delitem t g n) as [t' r]. tauto.
Qed.

Theorem run_calls_ok : forall cs t s, is_grp t -> Forall proper cs -> (forall q, abstract t q = s q) ->
  is_grp (fst (run_calls t cs)) /\ snd (run_calls t cs) = snd (s_calls s cs) /\
  forall q, abstract (fst (run_calls t cs)) q = fst (s_calls s cs) q.
Proof.
  induction cs as [|c cs IH]; intros t s Hg Hp Hs; cbn [run_calls s_calls]; [auto|].
  pose proof (Forall_inv Hp) as Hc. pose proof (Forall_inv_tail Hp) as Hp'.
  destruct (run_call_ok t c Hg Hc) as (A1 & A2 & A3).
  destruct (s_call_ext (abstract t) s c Hs) as (B1 & B2).
  destruct (run_call t c) as [t1 o1]. destruct (s_call s c) as [s1 o2]. cbn [fst snd] in *.
  destruct (IH t1 s1) as (C1 & C2 & C3); [assumption|assumption|intro q; now rewrite A3, B2|].
  destruct (run_calls t1 cs) as [t2 os]. destruct (s_calls s1 cs) as [s2 os']. cbn [fst snd] in *.
  split; [assumption|]. split; [|assumption]. congruence.
Qed.
End Tree.

(** *** From the empty tree *)
Lemma abstract_new : forall D V q, @abstract D V new_root q = empty_state q.
Proof. intros D V [|x q]; reflexivity. Qed.

Definition shows {D V} (r : res (str * node D V)) (s : state D) (p : list str) : Prop :=
  match s p with
  | Some EGroup => exists a kids, r = Ok (canonical p, Grp a kids)
  | Some (EData d) => r = Ok (canonical p, Dset d)
  | None => r = Err (missing s p)
  end.
Lemma missing_ext : forall D (s s' : state D) p, (forall q, s q = s' q) -> missing s p = missing s' p.
Proof. intros D s s' p H. unfold missing. now rewrite (blocked_ext s s' p H). Qed.
Lemma getitem_shows : forall D V (t : node D V) s g n, (forall q, abstract t q = s q) -> absolute g ->
  shows (getitem t g n) s (target g n).
Proof.
  intros D V t s g n H Hg. unfold shows. rewrite <- H, <- (missing_ext _ (abstract t) s _ H).
  rewrite getitem_target by assumption.
  destruct (abstract t (target g n)) as [[|d]|] eqn:EA.
  - destruct (abstract_group _ _ EA) as (a & kids & ->). cbn [rbind]. eauto.
  - rewrite (abstract_data _ _ _ EA). reflexivity.
  - rewrite (abstract_none _ _ EA). reflexivity.
Qed.
Theorem tree_is_map : forall D V (cs : list (call D)) t os s' os', Forall proper cs ->
  run_calls (@new_root D V) cs = (t, os) -> s_calls empty_state cs = (s', os') ->
  os = os' /\ forall g n, absolute g -> shows (getitem t g n) s' (target g n).
Proof.
  intros D V cs t os s' os' Hp H1 H2.
  destruct (run_calls_ok cs (@new_root D V) empty_state) as (A & B & C).
  - eexists. eexists. reflexivity.
  - assumption.
  - apply abstract_new.
  - rewrite H1, H2 in *. cbn [fst snd] in *. split; [assumption|].
    intros g n Hg. now apply getitem_shows.
Qed.

(** What no call changes: paths that are neither above nor below its target. *)
Lemma s_call_frame : forall D (s : state D) c q, let p := match c with
      | CreateGroup g n | RequireGroup g n | CreateDataset g n _ | RequireDataset g n _ | Delete g n => target g n
      end in prefix q p = false -> prefix p q = false -> fst (s_call s c) q = s q.
Proof.
  intros D s c q p H1 H2.
  assert (HG : forall p', prefix q p' = false -> fst (s_create_group s p') q = s q).
  { intros p' H. unfold s_create_group. destruct (s p'); [reflexivity|]. destruct (blocked s p'); [reflexivity|].
    cbn. unfold with_groups. now rewrite H. }
  assert (HR : forall p', prefix q p' = false -> fst (s_require_group s p') q = s q).
  { intros p' H. unfold s_require_group. destruct (s p') as [[|d]|]; [reflexivity|reflexivity|now apply HG]. }
  assert (HC : forall p' d, prefix q p' = false -> prefix p' q = false -> fst (s_create_dataset s p' d) q = s q).
  { intros p' d H H'. unfold s_create_dataset.
    assert (H3 : prefix q (removelast p') = false).
    { destruct (prefix q (removelast p')) eqn:E0; [|reflexivity]. apply prefix_spec in E0 as (r & E0).
      destruct p' as [|x p'] using rev_ind; [cbn in H'; destruct q; discriminate|]. rewrite removelast_snoc in E0. subst p'.
      rewrite <- app_assoc in H. rewrite (proj2 (prefix_spec q _)) in H by eauto. discriminate. }
    specialize (HR _ H3). destruct (s_require_group s (removelast p')) as [s1 [e|]]; cbn [fst] in *; [assumption|].
    unfold with_data. now rewrite H'. }
  destruct c as [g n|g n|g n d|g n d|g n]; cbn [s_call]; fold p.
  - now apply HG.
  - now apply HR.
  - now apply HC.
  - unfold s_require_dataset. destruct (s p) as [[|x]|]; try reflexivity.
    destruct (blocked s p); [reflexivity|now apply HC].
  - unfold s_delete. destruct (s p); [|reflexivity]. cbn. unfold without. now rewrite H2.
Qed.
Lemma s_create_dataset_found : forall D (s : state D) p d, snd (s_create_dataset s p d) = None ->
  fst (s_create_dataset s p d) p = Some (EData d).
Proof.
  intros D s p d H. unfold s_create_dataset in *. destruct (s_require_group s (removelast p)) as [s1 [e|]]; cbn in *; [discriminate|].
  unfold with_data. now rewrite !prefix_refl.
Qed.
Lemma s_delete_gone : forall D (s : state D) p q, snd (s_delete s p) = None -> prefix p q = true ->
  fst (s_delete s p) q = None.
Proof.
  intros D s p q H Hq. unfold s_delete in *. destruct (s p); cbn in *; [|discriminate]. unfold without. now rewrite Hq.
Qed.
