(** Lemmas about [deep_group_copy]. *)
From Coq Require Import List Ascii Bool Arith ZArith Lia Permutation.
From Verif Require Import PyBase PyStr MemModel JsonModel AttrModel AttrProofs CopyModel MemSpec MemProofs MemProofs2 CopySpec.
Import ListNotations.
Open Scope nat_scope.

Section NodeInd.
Variable P : tree -> Prop.
Hypothesis H1 : forall d, P (Dset d).
Hypothesis H2 : forall a kids, Forall (fun km => P (snd km)) kids -> P (Grp a kids).
Fixpoint tree_ind' (n : tree) : P n :=
  match n with
  | Dset d => H1 d
  | Grp a kids => H2 a kids ((fix go (l : list (str * tree)) : Forall (fun km => P (snd km)) l :=
                                match l with
                                | [] => Forall_nil _
                                | x :: r => Forall_cons x (tree_ind' (snd x)) (go r)
                                end) kids)
  end.
End NodeInd.

(** *** Looking up *)
Lemma find_crawl : forall p (n m : tree), find n p = Some m <-> crawl n p = Ok m.
Proof.
  induction p as [|x p IH]; intros n m; cbn [find crawl].
  - split; congruence.
  - destruct n as [d|a kids]; [split; discriminate|]. destruct (dget x kids); [apply IH|split; discriminate].
Qed.
Lemma find_none : forall p (n : tree), find n p = None <-> exists e, crawl n p = Err e.
Proof.
  intros p n. destruct (find n p) as [m|] eqn:E0.
  - apply find_crawl in E0. split; [discriminate|intros (e & H); congruence].
  - split; [intros _|reflexivity]. destruct (crawl n p) as [m|e] eqn:E1; [|eauto].
    apply find_crawl in E1. congruence.
Qed.
Lemma find_app : forall p q (n : tree), find n (p ++ q) = match find n p with Some m => find m q | None => None end.
Proof.
  induction p as [|x p IH]; intros q n; [reflexivity|]. cbn [app find]. destruct n as [d|a kids]; [reflexivity|].
  destruct (dget x kids); [apply IH|reflexivity].
Qed.

(** *** Single calls on the target *)
Lemma create_group_exact : forall (t : tree) P x a kids, crawl t P = Ok (Grp a kids) -> dget x kids = None ->
  Forall good P -> good x ->
  exists g, create_group t [slash] (canonical (P ++ [x])) = (update_at t P (dput x (Grp [] [])), Ok g).
Proof.
  intros t P x a kids HC HX GP Gx. unfold create_group.
  assert (GQ : Forall good (P ++ [x])) by now apply good_snoc.
  assert (A0 : absolute [slash]) by (exists []; reflexivity).
  assert (T0 : target [slash] (canonical (P ++ [x])) = P ++ [x]).
  { rewrite target_absolute by apply canonical_absolute. now apply words_canonical. }
  rewrite format_canonical by (now apply path_join_absolute).
  rewrite words_path_join, T0 by assumption.
  rewrite getitem_target, T0 by assumption.
  rewrite crawl_app, HC. cbn [rbind crawl]. rewrite HX.
  rewrite split_canonical; [|now destruct P|assumption].
  assert (HR : exists ra rk, t = Grp ra rk).
  { destruct t as [d|ra rk]; [|eauto]. destruct P; cbn in HC; discriminate. }
  destruct HR as (ra & rk & Ht).
  assert (EL : create_loop ([] :: P ++ [x]) [slash] [] t = create_loop (P ++ [x]) (canonical []) [] t).
  { cbn [create_loop]. change (path_join [slash] []) with (canonical []).
    rewrite root_getitem_words by apply canonical_absolute.
    change (crawl t (words (canonical []))) with (@Ok tree t). rewrite Ht. reflexivity. }
  rewrite EL, (create_loop_old P [] x [] t a kids HC HX) by (try assumption; constructor).
  cbn [app chain]. rewrite getitem_target, T0 by assumption.
  rewrite (crawl_update _ _ _ _ _ _ HC). cbn [crawl]. rewrite dget_dput_same. cbn [rbind].
  eexists. reflexivity.
Qed.
Lemma path_split_canonical : forall P x, Forall good P -> good x ->
  exists h, path_split (path_join [slash] (canonical (P ++ [x]))) = (h, x) /\ format_abs_path h = Ok (canonical P).
Proof.
  intros P x GP Gx.
  assert (A0 : absolute [slash]) by (exists []; reflexivity).
  destruct (path_split_spec (path_join [slash] (canonical (P ++ [x])))) as (h & b & HS & Hh & Hb & HW).
  - now apply path_join_absolute.
  - apply path_join_plain. destruct P as [|y P].
    + destruct Gx as [G1 G2]. destruct (exists_last G1) as (u & c & ->). exists (slash :: u), c. split; [reflexivity|].
      intros ->. apply G2. apply in_or_app. right. now left.
    + destruct (join_last ((y :: P) ++ [x])) as (p & c & E & Hc); [discriminate|now apply good_snoc|].
      exists (slash :: p), c. split; [unfold canonical; now rewrite E|assumption].
  - rewrite words_path_join, target_absolute in HW by (try assumption; apply canonical_absolute).
    rewrite words_canonical in HW by now apply good_snoc.
    apply app_inj_tail in HW as [HW ->]. exists h. split; [assumption|]. now rewrite format_canonical, <- HW.
Qed.
Lemma create_dataset_exact : forall (t : tree) P x a kids d, crawl t P = Ok (Grp a kids) ->
  Forall good P -> good x ->
  exists g, create_dataset t [slash] (canonical (P ++ [x])) d = (update_at t P (dput x (Dset d)), Ok g).
Proof.
  intros t P x a kids d HC GP Gx. unfold create_dataset.
  assert (A0 : absolute [slash]) by (exists []; reflexivity).
  destruct (path_split_canonical P x GP Gx) as (h & E1 & E2). rewrite E1, E2.
  assert (T0 : target [slash] (canonical P) = P).
  { rewrite target_absolute by apply canonical_absolute. now apply words_canonical. }
  unfold require_group. rewrite getitem_target, T0 by assumption. rewrite HC. cbn [rbind].
  rewrite root_loc_words by apply canonical_absolute. rewrite words_canonical by assumption.
  rewrite path_join_canonical by assumption.
  rewrite getitem_target by assumption. rewrite target_absolute by apply canonical_absolute.
  rewrite words_canonical by now apply good_snoc.
  rewrite (crawl_update _ _ _ _ _ _ HC). cbn [crawl]. rewrite dget_dput_same. cbn [rbind]. eexists. reflexivity.
Qed.
Lemma getitem_canonical : forall (t : tree) g P, absolute g -> Forall good P ->
  getitem t g (canonical P) = rbind (crawl t P) (fun n => Ok (canonical P, n)).
Proof.
  intros t g P Hg GP. rewrite getitem_target by assumption. rewrite target_absolute by apply canonical_absolute.
  now rewrite words_canonical.
Qed.
Lemma dput_twice_alter : forall (kids : list (str * tree)) x c f, dget x (dput x c kids) = Some c ->
  dput x (f c) (dput x c kids) = dput x (f c) kids.
Proof. intros. apply dput_dput. Qed.
Lemma alter_update : forall P (t : tree) x c f a kids, crawl t P = Ok (Grp a kids) ->
  alter_at (update_at t P (dput x c)) (P ++ [x]) f = update_at t P (dput x (f c)).
Proof.
  induction P as [|p P IH]; intros t x c f a kids HC; cbn [crawl] in HC.
  - injection HC as ->. cbn [update_at app alter_at]. rewrite dget_dput_same. cbn [alter_at]. now rewrite dput_dput.
  - destruct t as [d|a' kids']; [discriminate|]. cbn [update_at]. destruct (dget p kids') as [m|] eqn:E0; [|discriminate].
    cbn [app alter_at]. rewrite dget_dput_same. rewrite (IH m x c f a kids HC). now rewrite dput_dput.
Qed.
Lemma update_update : forall P (t : tree) x c a kids k e, crawl t P = Ok (Grp a kids) ->
  update_at (update_at t P (dput x c)) (P ++ [x]) (dput k e) = update_at t P (dput x (update_at c [] (dput k e))).
Proof. intros P t x c a kids k e HC. exact (update_at_app P t (dput x c) x c [] (dput k e) a kids HC eq_refl). Qed.

(** *** Sorting pairs by their names *)
Lemma map_fst_insert : forall (A : Type) k (x : A) l,
  map fst (sort_insert (fun a b => sleb (fst a) (fst b)) (k, x) l) = sort_insert sleb k (map fst l).
Proof.
  induction l as [|[k' y] l IH]; [reflexivity|]. cbn [sort_insert map fst].
  destruct (sleb k k'); [reflexivity|]. cbn [map fst]. now rewrite IH.
Qed.
Definition sort_pairs {A} (l : list (str * A)) : list (str * A) := py_sorted (fun a b => sleb (fst a) (fst b)) l.
Lemma map_fst_sort : forall (A : Type) (l : list (str * A)), map fst (sort_pairs l) = py_sorted sleb (map fst l).
Proof.
  unfold sort_pairs. induction l as [|[k x] l IH]; [reflexivity|].
  change (py_sorted (fun a b => sleb (fst a) (fst b)) ((k, x) :: l)) with
    (sort_insert (fun a b => sleb (fst a) (fst b)) (k, x) (py_sorted (fun a b => sleb (fst a) (fst b)) l)).
  rewrite map_fst_insert, IH. reflexivity.
Qed.
Lemma sort_pairs_map : forall (A B : Type) (f : str -> A -> B) (l : list (str * A)),
  sort_pairs (map (fun '(k, x) => (k, f k x)) l) = map (fun '(k, x) => (k, f k x)) (sort_pairs l).
Proof.
  intros A B f. unfold sort_pairs.
  assert (G : forall k x l, sort_insert (fun a b => sleb (fst a) (fst b)) (k, f k x) (map (fun '(k, x) => (k, f k x)) l)
     = map (fun '(k, x) => (k, f k x)) (sort_insert (fun a b => sleb (fst a) (fst b)) (k, x) l)).
  { intros k x l. induction l as [|[k' y] l IH]; [reflexivity|]. cbn [sort_insert map fst].
    destruct (sleb k k'); [reflexivity|]. cbn [map]. now rewrite IH. }
  induction l as [|[k x] l IH]; [reflexivity|]. cbn [map].
  change (py_sorted (fun a b => sleb (fst a) (fst b)) ((k, f k x) :: map (fun '(k0, x0) => (k0, f k0 x0)) l)) with
    (sort_insert (fun a b => sleb (fst a) (fst b)) (k, f k x) (py_sorted (fun a b => sleb (fst a) (fst b)) (map (fun '(k0, x0) => (k0, f k0 x0)) l))).
  rewrite IH, G. reflexivity.
Qed.
Lemma dget_nodup : forall (A : Type) (l : list (str * A)) k x, NoDup (map fst l) -> In (k, x) l -> dget k l = Some x.
Proof.
  induction l as [|[k' y] l IH]; intros k x N H; [destruct H|]. cbn [map fst] in N. apply NoDup_cons_iff in N as [N1 N2].
  cbn [dget]. destruct H as [H|H].
  - injection H as -> ->. now rewrite seqb_refl.
  - destruct (seqb k k') eqn:E0; [|now apply IH]. apply seqb_eq in E0. subst k'. exfalso. apply N1.
    apply in_map_iff. exists (k, x). auto.
Qed.
Lemma dget_perm : forall (A : Type) (l l' : list (str * A)) k, Permutation l l' -> NoDup (map fst l) -> dget k l = dget k l'.
Proof.
  intros A l l' k HP N. destruct (dget k l) as [x|] eqn:E0.
  - apply dget_elem in E0. symmetry. apply dget_nodup; [|eapply Permutation_in; eauto].
    eapply Permutation_NoDup; [|exact N]. now apply Permutation_map.
  - destruct (dget k l') as [y|] eqn:E1; [|reflexivity]. apply dget_elem in E1.
    apply (Permutation_in _ (Permutation_sym HP)) in E1. rewrite (dget_nodup _ _ _ _ N E1) in E0. discriminate.
Qed.
Lemma dget_map : forall (A B : Type) (f : str -> A -> B) (l : list (str * A)) k,
  dget k (map (fun '(k, x) => (k, f k x)) l) = option_map (f k) (dget k l).
Proof.
  induction l as [|[k' x] l IH]; intro k; [reflexivity|]. cbn [map dget]. destruct (seqb k k') eqn:E0; [|apply IH].
  apply seqb_eq in E0. now subst.
Qed.

(** *** The image of a tree *)
Section Image.
Variable o : opts.
Definition attrs_of (a b : list (str * av)) : list (str * av) :=
  match copyattrs a (where_to o) (convert_attribute_strings o) b with Ok c => c | Err _ => b end.
Definition image_dset (P : list str) (d : dset) : dset :=
  if is_shared o (canonical P) then mkdset (dat d) (attrs_of (dattrs d) (dattrs d)) (daxis d)
  else match prepare o (canonical P) d with
  | Ok (x, ax, _) => mkdset (match x with Some x => x | None => blank (dat d) end) (attrs_of (dattrs d) []) ax
  | Err _ => d
  end.
Fixpoint image (P : list str) (n : tree) : tree :=
  match n with
  | Dset d => Dset (image_dset P d)
  | Grp a kids => Grp (attrs_of a []) (sort_pairs (map (fun '(k, m) => (k, image (P ++ [k]) m)) kids))
  end.
Definition skips_dset (P : list str) (d : dset) : list str :=
  if is_shared o (canonical P) then []
  else match prepare o (canonical P) d with
  | Ok (_, _, true) => [canonical P]
  | _ => []
  end.
Fixpoint skips (P : list str) (n : tree) : list str :=
  match n with
  | Dset d => skips_dset P d
  | Grp a kids => concat (map snd (sort_pairs (map (fun '(k, m) => (k, skips (P ++ [k]) m)) kids)))
  end.

Variable t1 : tree.
Hypothesis ok1 : TreeOK t1.
Hypothesis prep_ok : forall p d, find t1 p = Some (Dset d) ->
  if is_shared o (canonical p) then get_selection o (canonical p) = None
  else exists r, prepare o (canonical p) d = Ok r.
Hypothesis attrs_ok : forall p n k v, find t1 p = Some n -> dget k (node_attrs n) = Some v ->
  exists w, copy_value (convert_attribute_strings o) (where_to o) v = Ok w.

Lemma attrs_copy : forall p n b, find t1 p = Some n ->
  copyattrs (node_attrs n) (where_to o) (convert_attribute_strings o) b = Ok (attrs_of (node_attrs n) b) /\
  forall k, dget k (attrs_of (node_attrs n) b) =
    match dget k (node_attrs n) with
    | Some v => match copy_value (convert_attribute_strings o) (where_to o) v with Ok w => Some w | Err _ => None end
    | None => dget k b
    end.
Proof.
  intros p n b Hf.
  destruct (copyattrs_ok (node_attrs n) (where_to o) (convert_attribute_strings o) b
    (fun v => match copy_value (convert_attribute_strings o) (where_to o) v with Ok w => w | Err _ => v end)) as (c & E & K).
  - intros k v Hk. destruct (attrs_ok p n k v Hf Hk) as (w & Hw). now rewrite Hw.
  - unfold attrs_of. rewrite E. split; [reflexivity|]. intro k. rewrite K.
    destruct (dget k (node_attrs n)) as [v|] eqn:E0; [|reflexivity].
    destruct (attrs_ok p n k v Hf E0) as (w & Hw). now rewrite Hw.
Qed.

Lemma push_ok : forall P kids a, find t1 P = Some (Grp a kids) -> Forall good P ->
  push t1 (canonical P) kids = Ok (map (fun '(k, m) => (canonical (P ++ [k]), m)) (sort_pairs kids)).
Proof.
  intros P kids a Hf GP. destruct (ok1 P a kids Hf) as [N G].
  assert (HS : forall k m, In (k, m) (sort_pairs kids) -> good k /\ dget k kids = Some m).
  { intros k m H. apply (Permutation_in _ (Permutation_sym (py_sorted_perm _ kids))) in H.
    split; [|now apply dget_nodup]. rewrite Forall_forall in G. apply G. apply in_map_iff. exists (k, m). auto. }
  unfold push. rewrite <- map_fst_sort.
  induction (sort_pairs kids) as [|[k m] l IH]; [reflexivity|].
  cbn [map fst fold_right]. rewrite IH by (intros k' m' H; apply HS; now right). cbn [rbind].
  destruct (HS k m (or_introl eq_refl)) as [Gk Dk].
  assert (T : target (canonical P) k = P ++ [k]).
  { rewrite <- words_path_join by apply canonical_absolute. rewrite path_join_canonical by assumption.
    apply words_canonical. now apply good_snoc. }
  rewrite getitem_target, T by apply canonical_absolute.
  apply find_crawl in Hf. rewrite crawl_app, Hf. cbn [rbind crawl]. rewrite Dk. reflexivity.
Qed.

Lemma snoc_not_root : forall P x, Forall good P -> good x -> seqb (canonical (P ++ [x])) [slash] = false.
Proof. intros P x GP Gx. rewrite canonical_root by now apply good_snoc. destruct P; reflexivity. Qed.

Definition runs (n : tree) : Prop := forall P x, find t1 (P ++ [x]) = Some n -> Forall good P -> good x ->
  exists c, forall fuel t2 a kids rest names, crawl t2 P = Ok (Grp a kids) -> dget x kids = None ->
  copy_loop o t1 [slash] [slash] (c + fuel) ((canonical (P ++ [x]), n) :: rest) t2 names =
  copy_loop o t1 [slash] [slash] fuel rest (update_at t2 P (dput x (image (P ++ [x]) n))) (names ++ skips (P ++ [x]) n).

Lemma dset_runs : forall d, runs (Dset d).
Proof.
  intros d P x Hf GP Gx. exists 1. intros fuel t2 a kids rest names HC HX.
  cbn [Nat.add copy_loop]. unfold put_entry. cbn [image skips]. unfold image_dset, skips_dset.
  pose proof (prep_ok _ _ Hf) as Hp. destruct (is_shared o (canonical (P ++ [x]))).
  { rewrite Hp. destruct (path_split_canonical P x GP Gx) as (h & E1 & E2). rewrite E1, E2.
    rewrite getitem_canonical by first [now exists []|assumption]. rewrite HC. cbn [rbind].
    change (seqb [slash] [slash]) with true. cbv iota.
    assert (GQ : Forall good (P ++ [x])) by now apply good_snoc.
    rewrite root_getitem_words by apply canonical_absolute. rewrite words_canonical by assumption.
    pose proof (proj1 (find_crawl _ _ _) Hf) as Hc. rewrite Hc.
    rewrite root_loc_words by apply canonical_absolute. rewrite words_canonical by assumption.
    unfold put_attrs. rewrite getitem_canonical by first [now exists []|assumption].
    rewrite (crawl_update _ _ _ _ _ _ HC). cbn [crawl]. rewrite dget_dput_same. cbn [rbind node_attrs].
    destruct (attrs_copy _ _ (dattrs d) Hf) as [E3 _]. cbn [node_attrs] in E3. rewrite E3.
    rewrite root_loc_words by apply canonical_absolute. rewrite words_canonical by assumption.
    rewrite (alter_update P t2 x _ _ a kids HC). reflexivity. }
  destruct Hp as ([[y ax] sk] & Hp). rewrite Hp.
  destruct (create_dataset_exact t2 P x a kids (mkdset (match y with Some x => x | None => blank (dat d) end) [] ax) HC GP Gx) as (g & E).
  rewrite E. cbn [rbind]. unfold put_attrs.
  rewrite getitem_canonical by first [now exists []|now apply good_snoc].
  rewrite (crawl_update _ _ _ _ _ _ HC). cbn [crawl]. rewrite dget_dput_same. cbn [rbind].
  destruct (attrs_copy _ _ [] Hf) as [E1 _]. cbn [node_attrs dattrs] in *. rewrite E1.
  rewrite root_loc_words by apply canonical_absolute. rewrite words_canonical by now apply good_snoc.
  rewrite (alter_update P t2 x _ _ a kids HC). cbn [with_attrs dat daxis].
  cbn [app]. destruct sk; reflexivity.
Qed.
Lemma kids_run : forall ks P a0 kids0, find t1 P = Some (Grp a0 kids0) -> Forall good P ->
  Forall (fun km => runs (snd km)) ks -> NoDup (map fst ks) ->
  (forall k m, In (k, m) ks -> good k /\ dget k kids0 = Some m) ->
  exists c, forall fuel t2 a kids rest names, crawl t2 P = Ok (Grp a kids) -> (forall k, In k (map fst ks) -> dget k kids = None) ->
  copy_loop o t1 [slash] [slash] (c + fuel) (map (fun '(k, m) => (canonical (P ++ [k]), m)) ks ++ rest) t2 names =
  copy_loop o t1 [slash] [slash] fuel rest
    (update_at t2 P (fun l => fold_left (fun acc '(k, m) => dput k (image (P ++ [k]) m) acc) ks l))
    (names ++ concat (map (fun '(k, m) => skips (P ++ [k]) m) ks)).
Proof.
  induction ks as [|[k m] ks IH]; intros P a0 kids0 Hf GP HR N HK.
  - exists 0. intros fuel t2 a kids rest names HC _. cbn [map app concat Nat.add fold_left].
    rewrite app_nil_r. f_equal. symmetry.
    clear -HC. revert t2 HC. induction P as [|p P IH]; intros t2 HC; cbn [crawl] in HC.
    + injection HC as ->. reflexivity.
    + destruct t2 as [d|a' k']; [discriminate|]. cbn [update_at]. destruct (dget p k') as [m|] eqn:E0; [|discriminate].
      rewrite (IH m HC). f_equal. clear -E0. induction k' as [|[q y] k' IH]; [discriminate|]. cbn [dget] in E0. cbn [dput].
      destruct (seqb p q); [congruence|]. now rewrite IH.
  - cbn [map fst] in N. apply NoDup_cons_iff in N as [N1 N2].
    destruct (HK k m (or_introl eq_refl)) as [Gk Dk].
    assert (Hk : find t1 (P ++ [k]) = Some m) by (rewrite find_app, Hf; cbn [find]; now rewrite Dk).
    destruct (Forall_inv HR P k Hk GP Gk) as (c1 & R1).
    destruct (IH P a0 kids0 Hf GP (Forall_inv_tail HR) N2) as (c2 & R2); [intros; apply HK; now right|].
    exists (c1 + c2). intros fuel t2 a kids rest names HC HX. cbn [map app concat snd] in *.
    rewrite <- Nat.add_assoc.
    rewrite (R1 (c2 + fuel) t2 a kids _ _ HC (HX k (or_introl eq_refl))).
    set (t2' := update_at t2 P (dput k (image (P ++ [k]) m))).
    assert (HC' : crawl t2' P = Ok (Grp a (dput k (image (P ++ [k]) m) kids))).
    { unfold t2'. pose proof (crawl_update P t2 (dput k (image (P ++ [k]) m)) a kids [] HC) as E. rewrite app_nil_r in E. exact E. }
    rewrite (R2 fuel t2' a _ _ _ HC').
    2:{ intros k' Hk'. rewrite dget_dput_other; [apply HX; now right|]. intros ->. contradiction. }
    rewrite <- app_assoc. f_equal. unfold t2'. cbn [fold_left].
    clear -HC. revert t2 HC. generalize (image (P ++ [k]) m). intros im.
    generalize (fun acc '(k0, m0) => dput k0 (image (P ++ [k0]) m0) acc). intro g.
    induction P as [|p P IH]; intros t2 HC; cbn [crawl] in HC.
    + injection HC as ->. reflexivity.
    + destruct t2 as [d|a' k']; [discriminate|]. cbn [update_at]. destruct (dget p k') as [m'|] eqn:E0; [|discriminate].
      cbn [update_at]. rewrite dget_dput_same, dput_dput. now rewrite (IH m' HC).
Qed.
Lemma fold_dput_image : forall P ks done, NoDup (map fst ks) -> (forall k, In k (map fst ks) -> dget k done = None) ->
  fold_left (fun acc '(k, m) => dput k (image (P ++ [k]) m) acc) ks done
  = done ++ map (fun '(k, m) => (k, image (P ++ [k]) m)) ks.
Proof.
  induction ks as [|[k m] ks IH]; intros done N H; [now rewrite app_nil_r|].
  cbn [fold_left map fst] in *. apply NoDup_cons_iff in N as [N1 N2].
  rewrite JsonProofs.dput_new.
  2:{ intro G. apply dget_in in G as (v & Hv). rewrite H in Hv by now left. discriminate. }
  rewrite IH; [now rewrite <- app_assoc|assumption|].
  intros k' Hk'. specialize (H k' (or_intror Hk')).
  destruct (dget k' (done ++ [(k, image (P ++ [k]) m)])) as [v|] eqn:E0; [|reflexivity].
  exfalso. apply dget_elem in E0. apply in_app_or in E0 as [E0|[E0|[]]].
  - assert (Hi : In k' (map fst done)) by (apply in_map_iff; exists (k', v); auto).
    apply dget_in in Hi as (w & Hw). congruence.
  - injection E0 as -> _. contradiction.
Qed.
Lemma skips_sorted : forall P (kids : list (str * tree)),
  concat (map snd (sort_pairs (map (fun '(k, m) => (k, skips (P ++ [k]) m)) kids)))
  = concat (map (fun '(k, m) => skips (P ++ [k]) m) (sort_pairs kids)).
Proof.
  intros P kids. rewrite (sort_pairs_map _ _ (fun k m => skips (P ++ [k]) m)). rewrite map_map. f_equal.
  apply map_ext. intros [k m]. reflexivity.
Qed.
Lemma sorted_facts : forall P a (kids : list (str * tree)), find t1 P = Some (Grp a kids) ->
  NoDup (map fst (sort_pairs kids)) /\ forall k m, In (k, m) (sort_pairs kids) -> good k /\ dget k kids = Some m.
Proof.
  intros P a kids Hf. destruct (ok1 P a kids Hf) as [N G]. split.
  - rewrite map_fst_sort. eapply Permutation_NoDup; [apply py_sorted_perm|assumption].
  - intros k m H. apply (Permutation_in _ (Permutation_sym (py_sorted_perm _ kids))) in H.
    split; [|now apply dget_nodup]. rewrite Forall_forall in G. apply G. apply in_map_iff. exists (k, m). auto.
Qed.
Lemma all_run : forall n, runs n.
Proof.
  induction n as [d|a0 kids0 IH] using tree_ind'; [apply dset_runs|].
  intros P x Hf GP Gx.
  assert (GQ : Forall good (P ++ [x])) by now apply good_snoc.
  destruct (sorted_facts _ _ _ Hf) as [N HK].
  assert (HR : Forall (fun km => runs (snd km)) (sort_pairs kids0)).
  { apply Forall_forall. intros km H. apply (Permutation_in _ (Permutation_sym (py_sorted_perm _ kids0))) in H.
    rewrite Forall_forall in IH. now apply IH. }
  destruct (kids_run (sort_pairs kids0) (P ++ [x]) a0 kids0 Hf GQ HR N HK) as (c & R).
  exists (S c). intros fuel t2 a kids rest names HC HX. cbn [Nat.add copy_loop]. unfold put_entry.
  rewrite snoc_not_root by assumption.
  destruct (create_group_exact t2 P x a kids HC HX GP Gx) as (g & E). rewrite E. cbn [rbind].
  rewrite (push_ok _ _ _ Hf GQ). cbn [rbind]. unfold put_attrs.
  rewrite getitem_canonical by first [now exists []|assumption].
  rewrite (crawl_update _ _ _ _ _ _ HC). cbn [crawl]. rewrite dget_dput_same. cbn [rbind].
  destruct (attrs_copy _ _ [] Hf) as [E1 _]. cbn [node_attrs] in *. rewrite E1.
  rewrite root_loc_words by apply canonical_absolute. rewrite words_canonical by assumption.
  rewrite (alter_update P t2 x _ _ a kids HC). cbn [with_attrs].
  set (t2' := update_at t2 P (dput x (Grp (attrs_of a0 []) []))).
  assert (HC' : crawl t2' (P ++ [x]) = Ok (Grp (attrs_of a0 []) [])).
  { unfold t2'. rewrite (crawl_update _ _ _ _ _ _ HC). cbn [crawl]. now rewrite dget_dput_same. }
  rewrite app_nil_r.
  rewrite (R fuel t2' _ _ rest names HC'); [|reflexivity].
  f_equal.
  - unfold t2'. rewrite (update_at_app P t2 _ x (Grp (attrs_of a0 []) []) [] _ a kids HC eq_refl). cbn [update_at image].
    rewrite fold_dput_image by (try assumption; reflexivity). cbn [app].
    now rewrite (sort_pairs_map _ _ (fun k m => image (P ++ [x] ++ [k]) m)) || (rewrite (sort_pairs_map _ _ (fun k m => image ((P ++ [x]) ++ [k]) m))).
  - f_equal. cbn [skips]. now rewrite skips_sorted.
Qed.

Theorem copy_root : forall a0 kids0 a kids, t1 = Grp a0 kids0 -> (forall k, In k (map fst kids0) -> dget k kids = None) ->
  exists c, forall fuel, deep_group_copy o t1 [slash] (Grp a kids) [slash] (c + fuel) =
  Some (Grp (attrs_of a0 a) (kids ++ map (fun '(k, m) => (k, image [k] m)) (sort_pairs kids0)),
        Ok (concat (map (fun '(k, m) => skips [k] m) (sort_pairs kids0)))).
Proof.
  intros a0 kids0 a kids Ht HX.
  assert (Hf : find t1 [] = Some (Grp a0 kids0)) by (rewrite Ht; reflexivity).
  destruct (sorted_facts _ _ _ Hf) as [N HK].
  assert (HR : Forall (fun km => runs (snd km)) (sort_pairs kids0)) by (apply Forall_forall; intros; apply all_run).
  destruct (kids_run (sort_pairs kids0) [] a0 kids0 Hf (Forall_nil _) HR N HK) as (c & R).
  exists (S c). intro fuel. unfold deep_group_copy.
  assert (E0 : getitem t1 [slash] [] = Ok (canonical [], t1)).
  { rewrite getitem_target by now exists []. reflexivity. }
  rewrite E0. cbn [Nat.add copy_loop]. rewrite Ht at 2. unfold put_entry.
  change (seqb (canonical []) (canonical [])) with true. cbn [rbind].
  rewrite (push_ok [] kids0 a0 Hf (Forall_nil _)). cbn [rbind]. unfold put_attrs.
  rewrite (getitem_canonical _ [slash] []) by first [now exists []|constructor]. cbn [crawl rbind].
  destruct (attrs_copy _ _ a Hf) as [E1 _]. cbn [node_attrs] in *. rewrite Ht. cbn [node_attrs]. rewrite E1.
  rewrite root_loc_words by apply canonical_absolute. change (words (canonical [])) with (@nil str).
  cbn [alter_at with_attrs]. rewrite <- Ht. change (canonical []) with [slash].
  change (@app str [] []) with (@nil str).
  rewrite (R fuel (Grp (attrs_of a0 a) kids) (attrs_of a0 a) kids [] []); [|reflexivity|].
  2:{ intros k Hk. apply HX. rewrite map_fst_sort in Hk.
      exact (Permutation_in k (Permutation_sym (py_sorted_perm sleb (map fst kids0))) Hk). }
  destruct fuel; cbn [copy_loop update_at]; rewrite fold_dput_image; try reflexivity; try assumption;
    intros k Hk; apply HX; rewrite map_fst_sort in Hk;
    exact (Permutation_in k (Permutation_sym (py_sorted_perm sleb (map fst kids0))) Hk).
Qed.

Lemma find_image : forall r P n, find t1 P = Some n -> find (image P n) r = option_map (image (P ++ r)) (find n r).
Proof.
  induction r as [|x r IH]; intros P n Hf; [cbn [find option_map]; now rewrite app_nil_r|].
  destruct n as [d|a kids]; [reflexivity|]. cbn [image find].
  destruct (ok1 P a kids Hf) as [N _].
  rewrite (sort_pairs_map _ _ (fun k m => image (P ++ [k]) m)), dget_map.
  rewrite <- (dget_perm _ kids (sort_pairs kids) x (py_sorted_perm _ kids) N).
  destruct (dget x kids) as [m|] eqn:E0; [|reflexivity]. cbn [option_map].
  rewrite IH; [now rewrite <- app_assoc|]. rewrite find_app, Hf. cbn [find]. now rewrite E0.
Qed.
Theorem copy_find : forall t2, GroupAt t1 [] -> GroupAt t2 [] -> Fresh t1 t2 ->
  exists c t2' names, (forall fuel, deep_group_copy o t1 [slash] t2 [slash] (c + fuel) = Some (t2', Ok names)) /\ names = skips [] t1 /\
  (exists kids, t2' = Grp (attrs_of (node_attrs t1) (node_attrs t2)) kids) /\
  (forall p, p <> [] -> find t1 p <> None -> find t2' p = option_map (image p) (find t1 p)) /\
  (forall p, find t1 p = None -> find t2' p = find t2 p).
Proof.
  intros t2 (a0 & kids0 & H1) (a & kids & H2) HF. cbn [find] in H1, H2. injection H1 as H1. injection H2 as H2.
  assert (HX : forall k, In k (map fst kids0) -> dget k kids = None).
  { intros k Hk. apply dget_in in Hk as (m & Hm). specialize (HF k). rewrite H1, H2 in HF. cbn [find] in HF. rewrite Hm in HF.
    specialize (HF ltac:(discriminate)). destruct (dget k kids); [discriminate|reflexivity]. }
  destruct (copy_root a0 kids0 a kids H1 HX) as (c & Hc). rewrite H2.
  exists c. eexists. eexists. split; [exact Hc|].
  split; [rewrite H1; cbn [skips]; now rewrite skips_sorted|].
  assert (Hf : find t1 [] = Some (Grp a0 kids0)) by now rewrite H1.
  destruct (ok1 [] a0 kids0 Hf) as [N0 _].
  assert (HD : forall k, dget k (kids ++ map (fun '(k, m) => (k, image [k] m)) (sort_pairs kids0)) =
     match dget k kids0 with Some m => Some (image [k] m) | None => dget k kids end).
  { intro k.
    assert (DA : forall (l l' : list (str * tree)), dget k (l ++ l') = match dget k l with Some m => Some m | None => dget k l' end).
    { induction l as [|[k' y] l IH]; intro l'; [reflexivity|]. cbn [app dget]. destruct (seqb k k'); [reflexivity|apply IH]. }
    rewrite DA, (dget_map _ _ (fun k m => image [k] m)).
    rewrite <- (dget_perm _ kids0 (sort_pairs kids0) k (py_sorted_perm _ kids0) N0).
    destruct (dget k kids0) as [m|] eqn:E0.
    - rewrite HX by (apply dget_in; eauto). reflexivity.
    - cbn [option_map]. now destruct (dget k kids). }
  split; [eexists; rewrite H1; reflexivity|]. split.
  - intros [|k r] Hp Hn; [congruence|]. rewrite H1 in Hn |- *. cbn [find] in *. rewrite HD.
    destruct (dget k kids0) as [m|] eqn:E0; [|congruence].
    rewrite find_image by (rewrite H1; cbn [find]; now rewrite E0). reflexivity.
  - intros [|k r] Hn; rewrite H1 in Hn; cbn [find] in *; [discriminate|]. rewrite HD.
    destruct (dget k kids0) as [m|] eqn:E0; [|reflexivity].
    rewrite find_image by (rewrite H1; cbn [find]; now rewrite E0). rewrite Hn. cbn [option_map].
    rewrite HX by (apply dget_in; eauto). reflexivity.
Qed.
End Image.
