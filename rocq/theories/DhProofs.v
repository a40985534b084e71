From Coq Require Import String.
From Coq Require Import List Ascii Bool Arith ZArith Lia.
From Verif Require Import PyBase PyStr MemModel MemProofs2 FmtModel DhModel DhSpec.
Import ListNotations.
Open Scope list_scope.
Open Scope nat_scope.

(** * Lists *)
Lemma lset_length : forall A i (x : A) l, length (lset i x l) = length l.
Proof. intros A i x l. revert i. induction l as [|y l IH]; intros [|i]; cbn; auto. Qed.
Lemma lset_same : forall A i (x : A) l, i < length l -> nth_error (lset i x l) i = Some x.
Proof. intros A i x l. revert i. induction l as [|y l IH]; intros [|i] H; cbn in *; try lia; auto. apply IH. lia. Qed.
Lemma lset_other : forall A i j (x : A) l, i <> j -> nth_error (lset i x l) j = nth_error l j.
Proof. intros A i j x l. revert i j. induction l as [|y l IH]; intros [|i] [|j] H; cbn; auto; try congruence. Qed.
Lemma nth_some_lt : forall A (l : list A) i x, nth_error l i = Some x -> i < length l.
Proof. intros A l i x H. apply nth_error_Some. rewrite H. discriminate. Qed.
Lemma nth_app_end : forall A (l : list A) x, nth_error (l ++ [x]) (length l) = Some x.
Proof. intros A l x. rewrite nth_error_app2 by lia. rewrite Nat.sub_diag. reflexivity. Qed.
Lemma nth_app_old : forall A (l : list A) x i y, nth_error l i = Some y -> nth_error (l ++ [x]) i = Some y.
Proof. intros A l x i y H. rewrite nth_error_app1; auto. apply (nth_some_lt _ _ _ _ H). Qed.
Lemma nth_app_inv : forall A (l : list A) x i y, nth_error (l ++ [x]) i = Some y -> nth_error l i = Some y \/ (i = length l /\ y = x).
Proof.
  intros A l x i y H. destruct (lt_eq_lt_dec i (length l)) as [[L|E]|G].
  - left. rewrite nth_error_app1 in H; auto.
  - right. subst i. rewrite nth_app_end in H. injection H; auto.
  - exfalso. apply nth_some_lt in H. rewrite app_length in H. cbn in H. lia.
Qed.

Lemma key_dec : forall a b : key, {a = b} + {a <> b}.
Proof.
  intros [r n|j] [r' n'|j']; try (right; discriminate).
  - destruct (Nat.eq_dec r r') as [->|N]; [|right; congruence].
    destruct (str_eq_dec n n') as [->|N]; [left; auto|right; congruence].
  - destruct (Nat.eq_dec j j') as [->|N]; [left; auto|right; congruence].
Qed.

(** * The specification machine *)
Lemma cell_put_same : forall a k c c', cell_of a k = Some c -> cell_of (put_cell a k c') k = Some c'.
Proof.
  intros a [r n|j] c c' H; cbn in *.
  - destruct (nth_error (names a) r) as [l|] eqn:E; [|discriminate]. cbn.
    rewrite lset_same by (apply (nth_some_lt _ _ _ _ E)). apply dget_dput_same.
  - apply lset_same. apply (nth_some_lt _ _ _ _ H).
Qed.
Lemma cell_put_other : forall a k k' c', k <> k' -> cell_of (put_cell a k c') k' = cell_of a k'.
Proof.
  intros a [r n|j] [r' n'|j'] c' H; cbn; try (destruct (nth_error (names a) r) eqn:E; cbn; reflexivity); auto.
  - destruct (nth_error (names a) r) as [l|] eqn:E; cbn; auto.
    destruct (Nat.eq_dec r r') as [->|N].
    + rewrite lset_same by (apply (nth_some_lt _ _ _ _ E)). rewrite E. apply dget_dput_other. congruence.
    + rewrite lset_other by auto. reflexivity.
  - apply lset_other. congruence.
Qed.
Lemma put_names_length : forall a k c, length (names (put_cell a k c)) = length (names a).
Proof. intros a [r n|j] c; cbn; auto. destruct (nth_error (names a) r); cbn; auto. apply lset_length. Qed.
Lemma put_akeys : forall a k c, akeys (put_cell a k c) = akeys a.
Proof. intros a [r n|j] c; cbn; auto. destruct (nth_error (names a) r); reflexivity. Qed.

(** * What the two machines have to do with each other *)
Definition some (a : option nat) : bool := match a with Some _ => true | None => false end.
Definition good (strict : bool) (ids : key -> option (nat * nat)) (a : astate) (d : dset) (k : key) : Prop :=
  exists c, cell_of a k = Some c /\ ids k = Some (a_buf (d_data d), d_attrs d)
  /\ (strict = true -> a_axis (d_data d) = c_axis c)
  /\ some (a_axis (d_data d)) = some (c_axis c)
  /\ axis_ok (c_shape c) (a_axis (d_data d)) = true.
Definition held (ids : key -> option (nat * nat)) (d : dset) (k : key) : Prop :=
  forall r, d_root d = Some r -> match k with KName r' n => r = r' /\ d_name d = n | KOwn _ => True end.

Record Rel (strict : bool) (ids : key -> option (nat * nat)) (st : state) (a : astate) : Prop := {
  rel_len : length (roots st) = length (names a);
  rel_cells : forall k c, cell_of a k = Some c -> exists b t, ids k = Some (b, t)
      /\ nth_error (bufs st) b = Some (Buf (c_shape c) (c_vals c)) /\ nth_error (atts st) t = Some (c_attrs c);
  rel_valid : forall k p, ids k = Some p -> exists c, cell_of a k = Some c;
  rel_inj : forall k k' b t b' t', ids k = Some (b, t) -> ids k' = Some (b', t') -> b = b' \/ t = t' -> k = k';
  rel_base : forall r l, nth_error (roots st) r = Some l -> forall n,
      match dget n l with
      | Some d => d_root d = None /\ d_name d = n /\ good strict ids a d (KName r n)
      | None => cell_of a (KName r n) = None
      end;
  rel_hlen : length (hands st) = length (akeys a);
  rel_hand : forall i d k, nth_error (hands st) i = Some d -> nth_error (akeys a) i = Some k ->
      good strict ids a d k /\ held ids d k }.

Lemma rel_fresh_b : forall s ids st a k b t, Rel s ids st a -> ids k = Some (b, t) -> b < length (bufs st) /\ t < length (atts st).
Proof.
  intros s ids st a k b t R H. destruct (rel_valid _ _ _ _ R _ _ H) as (c & Hc).
  destruct (rel_cells _ _ _ _ R _ _ Hc) as (b' & t' & I & B & T). rewrite H in I. injection I; intros <- <-.
  split; [apply (nth_some_lt _ _ _ _ B)|apply (nth_some_lt _ _ _ _ T)].
Qed.

(** Looking up a reference in both. *)
Lemma deref_rel : forall s ids st a x, Rel s ids st a ->
  match deref st x with
  | Ok d => exists k, key_of a x = Ok k /\ good s ids a d k /\ held ids d k
  | Err e => key_of a x = Err e
  end.
Proof.
  intros s ids st a [r n|i] R; cbn.
  - destruct (nth_error (roots st) r) as [l|] eqn:E.
    + assert (L : r < length (names a)) by (rewrite <- (rel_len _ _ _ _ R); apply (nth_some_lt _ _ _ _ E)).
      destruct (nth_error (names a) r) as [al|] eqn:E'; [|apply nth_error_None in E'; lia].
      pose proof (rel_base _ _ _ _ R _ _ E n) as B. destruct (dget n l) as [d|] eqn:G.
      * destruct B as (Hr & Hn & Hg). destruct Hg as (c & Hc & Hi & Hrest) eqn:X. pose proof Hc as Hc'.
        cbn in Hc'. rewrite E' in Hc'. rewrite Hc'. exists (KName r n). repeat split; auto.
        -- rewrite Hr in H. discriminate.
      * cbn in B. rewrite E' in B. rewrite B. reflexivity.
    + apply nth_error_None in E. rewrite (rel_len _ _ _ _ R) in E. apply nth_error_None in E. rewrite E. reflexivity.
  - destruct (nth_error (hands st) i) as [d|] eqn:E.
    + assert (L : i < length (akeys a)) by (rewrite <- (rel_hlen _ _ _ _ R); apply (nth_some_lt _ _ _ _ E)).
      destruct (nth_error (akeys a) i) as [k|] eqn:E'; [|apply nth_error_None in E'; lia].
      exists k. destruct (rel_hand _ _ _ _ R _ _ _ E E'). auto.
    + apply nth_error_None in E. rewrite (rel_hlen _ _ _ _ R) in E. apply nth_error_None in E. rewrite E. reflexivity.
Qed.

(** * One cell changes *)
Definition alike (s : bool) (t : nat) (sh : list nat) (d d' : dset) : Prop :=
  d_name d' = d_name d /\ d_root d' = d_root d /\ a_buf (d_data d') = a_buf (d_data d) /\ d_attrs d' = d_attrs d
  /\ some (a_axis (d_data d')) = some (a_axis (d_data d))
  /\ (a_axis (d_data d') = a_axis (d_data d) \/ (s = false /\ d_attrs d = t /\ axis_ok sh (a_axis (d_data d')) = true)).
Lemma alike_refl : forall s t sh d, alike s t sh d d.
Proof. intros; unfold alike; auto 10. Qed.
Definition oalike s t sh (o o' : option dset) : Prop :=
  match o, o' with Some d, Some d' => alike s t sh d d' | None, None => True | _, _ => False end.
Lemma oalike_refl : forall s t sh o, oalike s t sh o o.
Proof. intros s t sh [d|]; cbn; auto. apply alike_refl. Qed.

Lemma good_update : forall s ids a k c c' d d' k0 b t,
  (forall k k' b t b' t', ids k = Some (b, t) -> ids k' = Some (b', t') -> b = b' \/ t = t' -> k = k') ->
  cell_of a k = Some c -> ids k = Some (b, t) ->
  c_shape c' = c_shape c -> some (c_axis c') = some (c_axis c) -> (s = true -> c_axis c' = c_axis c) ->
  alike s t (c_shape c) d d' -> good s ids a d k0 -> good s ids (put_cell a k c') d' k0.
Proof.
  intros s ids a k c c' d d' k0 b t INJ C I Sh So St (An & Ar & Ab & At & As & Ax) (c0 & C0 & I0 & E0 & S0 & O0).
  destruct (key_dec k k0) as [->|N].
  - rewrite C in C0. injection C0; intros <-. exists c'. rewrite (cell_put_same _ _ _ _ C).
    rewrite Ab, At, As, Sh, So. repeat split; auto.
    + intros Z. destruct Ax as [->|(F & _)]; [|congruence]. rewrite (St Z). auto.
    + destruct Ax as [->|(_ & _ & Q)]; auto.
  - exists c0. rewrite (cell_put_other _ _ _ _ N). rewrite Ab, At, As.
    assert (E : a_axis (d_data d') = a_axis (d_data d)).
    { destruct Ax as [E|(_ & T & _)]; auto. exfalso. apply N.
      apply (INJ _ _ _ _ _ _ I I0). right. congruence. }
    rewrite E. repeat split; auto.
Qed.

Lemma rel_update : forall s ids st a k c c' b t bs' ts' (rs' : list root) hs',
  Rel s ids st a -> cell_of a k = Some c -> ids k = Some (b, t) ->
  c_shape c' = c_shape c -> some (c_axis c') = some (c_axis c) -> (s = true -> c_axis c' = c_axis c) ->
  nth_error bs' b = Some (Buf (c_shape c') (c_vals c')) -> (forall j, j <> b -> nth_error bs' j = nth_error (bufs st) j) ->
  nth_error ts' t = Some (c_attrs c') -> (forall j, j <> t -> nth_error ts' j = nth_error (atts st) j) ->
  length rs' = length (roots st) ->
  (forall r (l l' : root), nth_error (roots st) r = Some l -> nth_error rs' r = Some l' ->
     forall n, oalike s t (c_shape c) (dget n l) (dget n l')) ->
  length hs' = length (hands st) ->
  (forall i d d', nth_error (hands st) i = Some d -> nth_error hs' i = Some d' -> alike s t (c_shape c) d d') ->
  Rel s ids (St bs' ts' rs' hs') (put_cell a k c').
Proof.
  intros s ids st a k c c' b t bs' ts' rs' hs' R C I Sh So Sx B Bo T To Lr Ar Lh Ah.
  pose proof (rel_inj _ _ _ _ R) as INJ.
  constructor; cbn [bufs atts roots hands].
  - rewrite put_names_length, Lr. apply (rel_len _ _ _ _ R).
  - intros k0 c0 H0. destruct (key_dec k k0) as [->|N].
    + rewrite (cell_put_same _ _ _ _ C) in H0. injection H0; intros <-. exists b, t. auto.
    + rewrite (cell_put_other _ _ _ _ N) in H0. destruct (rel_cells _ _ _ _ R _ _ H0) as (b0 & t0 & I0 & B0 & T0).
      exists b0, t0. split; auto. split.
      * rewrite Bo; auto. intros ->. apply N. apply (INJ _ _ _ _ _ _ I I0). auto.
      * rewrite To; auto. intros ->. apply N. apply (INJ _ _ _ _ _ _ I I0). auto.
  - intros k0 p H0. destruct (rel_valid _ _ _ _ R _ _ H0) as (c0 & H1). destruct (key_dec k k0) as [->|N].
    + exists c'. apply (cell_put_same _ _ _ _ C).
    + exists c0. rewrite (cell_put_other _ _ _ _ N). auto.
  - exact INJ.
  - intros r l' E' n. assert (L : r < length (roots st)) by (rewrite <- Lr; apply (nth_some_lt _ _ _ _ E')).
    destruct (nth_error (roots st) r) as [l|] eqn:E; [|apply nth_error_None in E; lia].
    pose proof (Ar _ _ _ E E' n) as Al. pose proof (rel_base _ _ _ _ R _ _ E n) as Bs.
    destruct (dget n l) as [d|] eqn:G; destruct (dget n l') as [d'|] eqn:G'; cbn in Al; try contradiction.
    + destruct Bs as (X & Y & Z). pose proof Al as (An & Aro & _). rewrite An, Aro. repeat split; auto.
      apply (good_update _ _ _ _ _ _ _ _ _ _ _ INJ C I Sh So Sx Al Z).
    + rewrite cell_put_other; auto. intros ->. congruence.
  - rewrite put_akeys, Lh. apply (rel_hlen _ _ _ _ R).
  - intros i d' k0 E' K. rewrite put_akeys in K.
    assert (L : i < length (hands st)) by (rewrite <- Lh; apply (nth_some_lt _ _ _ _ E')).
    destruct (nth_error (hands st) i) as [d|] eqn:E; [|apply nth_error_None in E; lia].
    destruct (rel_hand _ _ _ _ R _ _ _ E K) as (Hg & Hh). pose proof (Ah _ _ _ E E') as Al. split.
    + apply (good_update _ _ _ _ _ _ _ _ _ _ _ INJ C I Sh So Sx Al Hg).
    + destruct Al as (An & Aro & _). intros r Hr. rewrite Aro in Hr. specialize (Hh r Hr). rewrite An. exact Hh.
Qed.
Lemma put_same_cell : forall a k c, cell_of a k = Some c -> forall k', cell_of (put_cell a k c) k' = cell_of a k'.
Proof. intros a k c H k'. destruct (key_dec k k') as [->|N]; [rewrite (cell_put_same _ _ _ _ H)|rewrite cell_put_other]; auto. Qed.

Lemma good_ext : forall s ids a a' d k, (forall k, cell_of a' k = cell_of a k) -> good s ids a d k -> good s ids a' d k.
Proof. intros s ids a a' d k E (c & C & H). exists c. rewrite E. auto. Qed.
Lemma rel_ext : forall s ids st a a', Rel s ids st a -> (forall k, cell_of a' k = cell_of a k) ->
  length (names a') = length (names a) -> akeys a' = akeys a -> Rel s ids st a'.
Proof.
  intros s ids st a a' R E L K. constructor.
  - rewrite L. apply (rel_len _ _ _ _ R).
  - intros k c H. rewrite E in H. apply (rel_cells _ _ _ _ R _ _ H).
  - intros k p H. rewrite E. apply (rel_valid _ _ _ _ R _ _ H).
  - apply (rel_inj _ _ _ _ R).
  - intros r l H n. pose proof (rel_base _ _ _ _ R _ _ H n) as B. rewrite E. destruct (dget n l); auto.
    destruct B as (X & Y & Z). repeat split; auto. apply (good_ext _ _ _ _ _ _ E Z).
  - rewrite K. apply (rel_hlen _ _ _ _ R).
  - intros i d k H1 H2. rewrite K in H2. destruct (rel_hand _ _ _ _ R _ _ _ H1 H2) as (X & Y). split; auto.
    apply (good_ext _ _ _ _ _ _ E X).
Qed.

Lemma rel_add_hand : forall s ids st a d k, Rel s ids st a -> good s ids a d k -> held ids d k ->
  Rel s ids (add_hand st d) (add_key a k).
Proof.
  intros s ids st a d k R G H. constructor; cbn [add_hand add_key bufs atts roots hands names owns akeys].
  - apply (rel_len _ _ _ _ R).
  - intros k0 c0 C0. apply (rel_cells _ _ _ _ R k0 c0). destruct k0; exact C0.
  - intros k0 p I. destruct (rel_valid _ _ _ _ R _ _ I) as (c & C). exists c. destruct k0; exact C.
  - apply (rel_inj _ _ _ _ R).
  - intros r l E n. pose proof (rel_base _ _ _ _ R _ _ E n) as B. destruct (dget n l); auto.
  - rewrite !app_length. cbn. f_equal. apply (rel_hlen _ _ _ _ R).
  - intros i d0 k0 E K. apply nth_app_inv in E. destruct E as [E|(-> & ->)].
    + assert (L : i < length (akeys a)) by (rewrite <- (rel_hlen _ _ _ _ R); apply (nth_some_lt _ _ _ _ E)).
      rewrite nth_error_app1 in K by exact L. destruct (rel_hand _ _ _ _ R _ _ _ E K) as (X & Y). split; [|auto].
      apply (good_ext _ _ a); [intros [|]; reflexivity|auto].
    + rewrite (rel_hlen _ _ _ _ R) in K. rewrite nth_app_end in K. injection K; intros <-. split; [|auto].
      apply (good_ext _ _ a); [intros [|]; reflexivity|auto].
Qed.

(** A new cell with its own memory. *)
Definition more_ids (ids : key -> option (nat * nat)) (k : key) (p : nat * nat) (k' : key) : option (nat * nat) :=
  if key_dec k k' then Some p else ids k'.
Lemma good_more : forall s ids a a' d k0 k p c, cell_of a k = None -> (forall k', k <> k' -> cell_of a' k' = cell_of a k') ->
  cell_of a' k = Some c -> good s ids a d k0 -> good s (more_ids ids k p) a' d k0.
Proof.
  intros s ids a a' d k0 k p c N O C (c0 & C0 & I & H).
  assert (Nk : k <> k0) by (intros ->; congruence).
  exists c0. rewrite (O _ Nk). unfold more_ids. destruct (key_dec k k0); [contradiction|]. auto.
Qed.

Section NewCell.
Context (s : bool) (ids : key -> option (nat * nat)) (st : state) (a a' : astate) (k : key) (c : cell) (rs : list root).
Hypothesis R : Rel s ids st a.
Hypothesis N : cell_of a k = None.
Hypothesis C : cell_of a' k = Some c.
Hypothesis O : forall k', k <> k' -> cell_of a' k' = cell_of a k'.
Hypothesis L : length (names a') = length (names a).
Hypothesis K : akeys a' = akeys a.
Let ids' := more_ids ids k (length (bufs st), length (atts st)).
Let st' := St (bufs st ++ [Buf (c_shape c) (c_vals c)]) (atts st ++ [c_attrs c]) rs (hands st).
Hypothesis Lr : length rs = length (roots st).
Hypothesis Br : forall r (l : root), nth_error rs r = Some l -> forall n,
      match dget n l with
      | Some d => d_root d = None /\ d_name d = n /\ good s ids' a' d (KName r n)
      | None => cell_of a' (KName r n) = None
      end.
Lemma rel_new_cell : Rel s ids' st' a'.
Proof.
  constructor; cbn [st' bufs atts roots hands].
  - rewrite L, Lr. apply (rel_len _ _ _ _ R).
  - intros k0 c0 H. unfold ids', more_ids. destruct (key_dec k k0) as [<-|D].
    + rewrite C in H. injection H; intros <-. exists (length (bufs st)), (length (atts st)).
      split; auto. split; apply nth_app_end.
    + rewrite (O _ D) in H. destruct (rel_cells _ _ _ _ R _ _ H) as (b & t & I & B & T). exists b, t.
      split; auto. split; apply nth_app_old; auto.
  - intros k0 p. unfold ids', more_ids. destruct (key_dec k k0) as [<-|D]; intros H.
    + exists c. exact C.
    + rewrite (O _ D). apply (rel_valid _ _ _ _ R _ _ H).
  - intros k1 k2 b t b' t'. unfold ids', more_ids.
    destruct (key_dec k k1) as [<-|D1], (key_dec k k2) as [<-|D2]; intros I1 I2 X; auto.
    + injection I1; intros; subst b t. destruct (rel_fresh_b _ _ _ _ _ _ _ R I2). lia.
    + injection I2; intros; subst b' t'. destruct (rel_fresh_b _ _ _ _ _ _ _ R I1). lia.
    + apply (rel_inj _ _ _ _ R _ _ _ _ _ _ I1 I2 X).
  - exact Br.
  - rewrite K. apply (rel_hlen _ _ _ _ R).
  - intros i d k0 E F. rewrite K in F. destruct (rel_hand _ _ _ _ R _ _ _ E F) as (X & Y). split; auto.
    apply (good_more _ _ _ _ _ _ _ _ _ N O C X).
Qed.
End NewCell.

(** * One statement *)
Definition SimStep (s : bool) (csize : nat) (st : state) (a : astate) (o : op) : Prop :=
  snd (step csize st o) = snd (astep csize a o)
  /\ exists ids', Rel s ids' (fst (step csize st o)) (fst (astep csize a o)).

Lemma cell_id : forall s ids st a d k c, Rel s ids st a -> good s ids a d k -> cell_of a k = Some c ->
  ids k = Some (a_buf (d_data d), d_attrs d)
  /\ nth_error (bufs st) (a_buf (d_data d)) = Some (Buf (c_shape c) (c_vals c))
  /\ nth_error (atts st) (d_attrs d) = Some (c_attrs c).
Proof.
  intros s ids st a d k c R (c0 & C0 & I & _) C. destruct (rel_cells _ _ _ _ R _ _ C) as (b & t & I' & B & T).
  rewrite I in I'. injection I'; intros <- <-. auto.
Qed.

Ltac look R x H :=
  let D := fresh "D" in
  pose proof (deref_rel _ _ _ _ x R) as D; destruct (deref _ x) as [d|e] eqn:H;
  [destruct D as (k & Hk & Hg & Hh); pose proof Hg as (c & Hc & Hi & Hx & Hs & Ho);
   destruct (cell_id _ _ _ _ _ _ _ R Hg Hc) as (_ & Hb & Ht)|].
Ltac unf := unfold SimStep, step, astep; cbn [exec aexec]; unfold with_cell.

Lemma sim_read : forall s csize ids st a x i, Rel s ids st a -> SimStep s csize st a (Read x i).
Proof.
  intros s csize ids st a x i R. unf. look R x H; cbn [rbind].
  - rewrite Hk. cbn [rbind]. rewrite Hc, Hb. cbn [b_vals]. destruct (nth_error (c_vals c) i); cbn; split; eauto.
  - rewrite D. cbn. eauto.
Qed.
Lemma sim_getattr : forall s csize ids st a x n, Rel s ids st a -> SimStep s csize st a (GetAttr x n).
Proof.
  intros s csize ids st a x i R. unf. look R x H; cbn [rbind].
  - rewrite Hk. cbn [rbind]. rewrite Hc, Ht. destruct (dget i (c_attrs c)); cbn; split; eauto.
  - rewrite D. cbn. eauto.
Qed.
Lemma sim_getaxis : forall csize ids st a x, Rel true ids st a -> SimStep true csize st a (GetAxis x).
Proof.
  intros csize ids st a x R. unf. look R x H; cbn [rbind].
  - rewrite Hk. cbn [rbind]. rewrite Hc. cbn. rewrite (Hx eq_refl). eauto.
  - rewrite D. cbn. eauto.
Qed.
Lemma sim_write : forall s csize ids st a x i v, Rel s ids st a -> SimStep s csize st a (Write x i v).
Proof.
  intros s csize ids st a x i v R. unf. look R x H; cbn [rbind].
  - rewrite Hk. cbn [rbind]. rewrite Hc, Hb. cbn [b_vals b_shape]. destruct (i <? length (c_vals c)); cbn [fst snd]; [|eauto].
    split; auto. exists ids. eapply rel_update; eauto; cbn.
    + apply lset_same. apply (nth_some_lt _ _ _ _ Hb).
    + intros j N. apply lset_other; auto.
    + intros r l l' E E' n. rewrite E in E'. injection E'; intros <-. apply oalike_refl.
    + intros j d0 d' E E'. rewrite E in E'. injection E'; intros <-. apply alike_refl.
  - rewrite D. cbn. eauto.
Qed.
Lemma sim_setattr : forall s csize ids st a x n v, Rel s ids st a -> SimStep s csize st a (SetAttr x n v).
Proof.
  intros s csize ids st a x i v R. unf. look R x H; cbn [rbind].
  - rewrite Hk. cbn [rbind]. rewrite Hc, Ht. cbn [fst snd].
    split; auto. exists ids. eapply rel_update; eauto; cbn.
    + apply lset_same. apply (nth_some_lt _ _ _ _ Ht).
    + intros j N. apply lset_other; auto.
    + intros r l l' E E' n. rewrite E in E'. injection E'; intros <-. apply oalike_refl.
    + intros j d0 d' E E'. rewrite E in E'. injection E'; intros <-. apply alike_refl.
  - rewrite D. cbn. eauto.
Qed.
Lemma sim_lookup : forall s csize ids st a r n, Rel s ids st a -> SimStep s csize st a (Lookup r n).
Proof.
  intros s csize ids st a r n R. unf. look R (Base r n) H; cbn [rbind].
  - rewrite Hk. cbn [rbind fst snd]. split; auto. exists ids. apply rel_add_hand; auto.
    + cbn in H. destruct (nth_error (roots st) r) as [l|] eqn:E; [|discriminate].
      pose proof (rel_base _ _ _ _ R _ _ E n) as B. destruct (dget n l) as [d0|]; [|discriminate].
      injection H; intros ->. destruct B as (X & Y & Z). cbn in Hk.
      destruct (nth_error (names a) r); [|discriminate]. destruct (dget n l0); [|discriminate].
      injection Hk; intros <-. intros q Hq. cbn in Hq |- *. split; congruence.
  - rewrite D. cbn. eauto.
Qed.
Lemma sim_view : forall s csize ids st a x, Rel s ids st a -> SimStep s csize st a (View x).
Proof.
  intros s csize ids st a x R. assert (Q : aexec csize a (View x) = rbind (key_of a x) (fun k => Ok (add_key a k, Done))) by (destruct x; reflexivity).
  unfold SimStep, step, astep. rewrite Q. cbn [exec]. look R x H; cbn [rbind].
  - rewrite Hk. cbn [rbind fst snd]. split; auto. exists ids. apply rel_add_hand; auto.
  - rewrite D. cbn. eauto.
Qed.
