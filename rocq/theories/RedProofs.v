(** Lemmas about redistribution and gathering. *)
From Coq Require Import List Arith ZArith Bool Lia Permutation.
From Verif Require Import PyBase PartModel PartSpec PartProofs PartProps0 SliceModel SliceProofs RedModel RedSpec.
Import ListNotations.
Open Scope nat_scope.

(** *** Lists and indices *)
Lemma nth_error_imap : forall f l k, nth_error (imap f l) k = option_map (f k) (nth_error l k).
Proof.
  intros f l k. unfold imap. rewrite nth_error_map', nth_error_enumerate.
  destruct (nth_error l k); reflexivity.
Qed.

Lemma length_imap : forall f l, length (imap f l) = length l.
Proof. intros. unfold imap. now rewrite map_length, length_enumerate. Qed.

Lemma imap_ext_in : forall f g l, (forall k x, nth_error l k = Some x -> f k x = g k x) ->
  imap f l = imap g l.
Proof.
  intros f g l H. apply nth_error_ext. intros k. rewrite !nth_error_imap.
  destruct (nth_error l k) as [n|] eqn:E; [|reflexivity]. cbn. f_equal. apply (H k n E).
Qed.

Lemma imap_imap : forall f g l, imap f (imap g l) = imap (fun k x => f k (g k x)) l.
Proof.
  intros. apply nth_error_ext. intros k. rewrite !nth_error_imap. now destruct (nth_error l k).
Qed.

Lemma imap_id : forall f l, (forall k x, nth_error l k = Some x -> f k x = x) -> imap f l = l.
Proof.
  intros f l H. apply nth_error_ext. intros k. rewrite nth_error_imap.
  destruct (nth_error l k) as [n|] eqn:E; [|reflexivity]. cbn. f_equal. apply (H k n E).
Qed.

Lemma set_nth_imap : forall k x l, set_nth k x l = imap (fun j y => if j =? k then x else y) l.
Proof.
  intros k x l. apply nth_error_ext. intros j. rewrite nth_error_imap.
  revert k j. induction l as [|y l IH]; intros k j.
  - unfold set_nth. destruct k, j; reflexivity.
  - destruct k as [|k].
    + change (set_nth 0 x (y :: l)) with (x :: l). destruct j as [|j]; cbn; auto. now destruct (nth_error l j).
    + change (set_nth (S k) x (y :: l)) with (y :: set_nth k x l). destruct j as [|j]; auto.
      cbn [nth_error]. rewrite IH. reflexivity.
Qed.

Lemma nth_error_set_nth : forall k x (l : list nat) j,
  nth_error (set_nth k x l) j = option_map (fun y => if j =? k then x else y) (nth_error l j).
Proof. intros. now rewrite set_nth_imap, nth_error_imap. Qed.

Lemma length_set_nth : forall k x (l : list nat), length (set_nth k x l) = length l.
Proof. intros. now rewrite set_nth_imap, length_imap. Qed.

Lemma shift_imap : forall k n idx, shift k n idx = imap (fun j x => if j =? k then x + n else x) idx.
Proof.
  intros k n idx. unfold shift. rewrite set_nth_imap. apply imap_ext_in. intros j x Hj.
  destruct (Nat.eqb_spec j k) as [->|]; auto. now rewrite (nth_error_nth _ _ 0 Hj).
Qed.

Lemma inshape_iff : forall idx sh, InShape idx sh <->
  length idx = length sh /\ forall k x d, nth_error idx k = Some x -> nth_error sh k = Some d -> x < d.
Proof.
  intros idx sh. split.
  - intros H. split; [induction H; cbn; auto|]. induction H; intros k a b Ha Hb.
    + destruct k; discriminate.
    + destruct k; cbn in *; [congruence|eauto].
  - revert sh. induction idx as [|x idx IH]; intros [|d sh] [Hl H]; try discriminate; constructor.
    + apply (H 0); reflexivity.
    + apply IH. split; [cbn in Hl; lia|]. intros k a b Ha Hb. apply (H (S k)); auto.
Qed.

Lemma inshape_lt : forall idx sh k d, InShape idx sh -> nth_error sh k = Some d ->
  exists x, nth_error idx k = Some x /\ x < d.
Proof.
  intros idx sh k d H Hd. apply inshape_iff in H as [Hl H].
  destruct (nth_error idx k) as [x|] eqn:E.
  - exists x. split; auto. eapply H; eauto.
  - apply nth_error_None in E. assert (k < length sh) by (apply nth_error_Some; congruence). lia.
Qed.

Lemma in_box_iff : forall b idx, in_box b idx = true <->
  forall k x, nth_error idx k = Some x -> in_range (b k) x = true.
Proof.
  intros b idx. unfold in_box. rewrite forallb_forall. split.
  - intros H k x Hk. apply (H (k, x)). apply nth_error_In with k. rewrite nth_error_enumerate, Hk. reflexivity.
  - intros H [k x] Hi. apply In_nth_error in Hi as [j Hj]. rewrite nth_error_enumerate in Hj.
    destruct (nth_error idx j) eqn:E; [|discriminate]. injection Hj as <- <-. now apply H.
Qed.

Lemma shape_eqb_true : forall a b, a = b -> shape_eqb a b = true.
Proof. intros a b ->. unfold shape_eqb. now destruct (list_eq_dec Nat.eq_dec b b). Qed.

Lemma lmax_ge : forall l x, In x l -> x <= lmax l.
Proof.
  induction l as [|y l IH]; intros x H; [contradiction|]. cbn. destruct H as [->|H]; [lia|].
  specialize (IH x H). unfold lmax in *. lia.
Qed.

Lemma split_m_closed' : forall n m, m <> 0 ->
  split_m n m = Ok (map (part_of n m) (seq 0 m), map (start_of n m) (seq 0 m),
                    map (fun i => start_of n m (S i)) (seq 0 m)).
Proof. intros n m Hm. rewrite split_m_closed by auto. now rewrite <- seq_shift, map_map. Qed.

(** *** The schedule *)
Lemma recv_from_closed : forall n r i, r < n -> i < n ->
  recv_from n r i = if i <=? r then r - i else r + n - i.
Proof.
  intros n r i Hr Hi. unfold recv_from. destruct (Nat.leb_spec i r).
  - rewrite Z.mod_small by lia. lia.
  - replace (Z.of_nat r - Z.of_nat i)%Z with (Z.of_nat (r + n - i) + (-1) * Z.of_nat n)%Z by lia.
    rewrite Z.mod_add by lia. rewrite Z.mod_small by lia. lia.
Qed.

Lemma send_to_closed : forall n r i, r < n -> i < n ->
  send_to n r i = if r + i <? n then r + i else r + i - n.
Proof.
  intros n r i Hr Hi. unfold send_to. destruct (Nat.ltb_spec (r + i) n).
  - now apply Nat.mod_small.
  - replace (r + i) with (r + i - n + 1 * n) at 1 by lia. rewrite Nat.mod_add by lia. apply Nat.mod_small. lia.
Qed.

Lemma partners : forall n r i, r < n -> i < n ->
  send_to n r i < n /\ recv_from n r i < n
  /\ recv_from n (send_to n r i) i = r /\ send_to n (recv_from n r i) i = r.
Proof.
  intros n r i Hr Hi.
  assert (S1 : send_to n r i < n) by (rewrite send_to_closed by auto; destruct (Nat.ltb_spec (r + i) n); lia).
  assert (R1 : recv_from n r i < n) by (rewrite recv_from_closed by auto; destruct (Nat.leb_spec i r); lia).
  repeat split; auto.
  - rewrite (recv_from_closed n (send_to n r i)) by auto. rewrite send_to_closed by auto.
    destruct (Nat.ltb_spec (r + i) n); [destruct (Nat.leb_spec i (r + i))|destruct (Nat.leb_spec i (r + i - n))]; lia.
  - rewrite (send_to_closed n (recv_from n r i)) by auto. rewrite recv_from_closed by auto.
    destruct (Nat.leb_spec i r); [destruct (Nat.ltb_spec (r - i + i) n)|destruct (Nat.ltb_spec (r + n - i + i) n)]; lia.
Qed.

Lemma each_pair_once : forall n p q, p < n -> q < n ->
  exists i, i < n /\ send_to n p i = q /\ forall j, j < n -> send_to n p j = q -> j = i.
Proof.
  intros n p q Hp Hq. exists (if p <=? q then q - p else q + n - p).
  assert (E : (if p <=? q then q - p else q + n - p) < n) by (destruct (Nat.leb_spec p q); lia).
  split; auto. split.
  - rewrite send_to_closed by auto. destruct (Nat.leb_spec p q); destruct (Nat.ltb_spec (p + (q - p)) n);
    destruct (Nat.ltb_spec (p + (q + n - p)) n); lia.
  - intros j Hj Hs. rewrite send_to_closed in Hs by auto. destruct (Nat.ltb_spec (p + j) n), (Nat.leb_spec p q); lia.
Qed.

Lemma receive_from_each : forall n r q, r < n -> q < n -> exists i, i < n /\ recv_from n r i = q.
Proof.
  intros n r q Hr Hq. destruct (each_pair_once n q r Hq Hr) as [i [Hi [E _]]]. exists i. split; auto.
  rewrite <- E. now apply partners.
Qed.

Lemma map_NoDup_in : forall A B (f : A -> B) (l : list A),
  (forall a b, In a l -> In b l -> f a = f b -> a = b) -> NoDup l -> NoDup (map f l).
Proof.
  intros A B f l Hf H. induction H as [|x l Hx Hl IH]; constructor.
  - intros C. apply in_map_iff in C as [y [E Hy]]. apply Hx. rewrite (Hf x y); auto; [now left|now right].
  - apply IH. intros a b Ha Hb. apply Hf; now right.
Qed.

Lemma step_permutation : forall n i, i < n ->
  Permutation (map (fun r => send_to n r i) (seq 0 n)) (seq 0 n).
Proof.
  intros n i Hi. apply NoDup_Permutation_bis.
  - apply map_NoDup_in; [|apply seq_NoDup].
    intros a b Ha Hb E. apply in_seq in Ha, Hb.
    destruct (partners n a i) as [_ [_ [P _]]]; try lia. destruct (partners n b i) as [_ [_ [Q _]]]; try lia.
    congruence.
  - now rewrite map_length.
  - intros x Hx. apply in_map_iff in Hx as [r [<- Hr]]. apply in_seq in Hr. apply in_seq.
    destruct (partners n r i); lia.
Qed.

Lemma tags_agree : forall n r i, r < n -> i < n ->
  send_tag n r i = recv_tag n (send_to n r i) i.
Proof.
  intros n r i Hr Hi. unfold send_tag, recv_tag. destruct (partners n r i Hr Hi) as [_ [_ [-> _]]]. reflexivity.
Qed.

Lemma tags_distinct : forall n p i q j, p < n -> i < n -> q < n -> j < n ->
  send_tag n p i = send_tag n q j -> p = q /\ i = j.
Proof.
  intros n p i q j Hp Hi Hq Hj E. unfold send_tag in E.
  destruct (partners n p i Hp Hi) as [A _]. destruct (partners n q j Hq Hj) as [B _].
  assert (p = q) as -> by nia. split; auto.
  destruct (each_pair_once n q (send_to n q j) Hq B) as [k [_ [_ U]]].
  rewrite (U i), (U j); auto. nia.
Qed.

(** *** The exchange *)
Section Ex.
  Context {A : Type} (G : list nat -> A) (gshape : list nat) (m ka kb : nat).
  Hypothesis Hm : 1 <= m.
  Hypothesis Hka : ka < length gshape.
  Hypothesis Hkb : kb < length gshape.
  Hypothesis Hab : ka <> kb.
  Let na := nth ka gshape 0.
  Let nb := nth kb gshape 0.
  Let sac := map (start_of nb m) (seq 0 m).
  Let eac := map (fun i => start_of nb m (S i)) (seq 0 m).
  Let sar := map (start_of na m) (seq 0 m).
  Let ear := map (fun i => start_of na m (S i)) (seq 0 m).
  Variable locals : nat -> nd (option A).
  Hypothesis Hl : forall r, r < m -> IsShare G gshape m ka r (locals r).

  Lemma nth_map_seq : forall (f : nat -> nat) r, r < m -> nth r (map f (seq 0 m)) 0 = f r.
  Proof.
    intros f r Hr. erewrite nth_error_nth; [reflexivity|]. rewrite nth_error_map_seq by auto. reflexivity.
  Qed.

  Lemma width : forall n r, r < m ->
    nth r (map (fun i => start_of n m (S i)) (seq 0 m)) 0 - nth r (map (start_of n m) (seq 0 m)) 0 = part_of n m r.
  Proof. intros n r Hr. rewrite !nth_map_seq by auto. rewrite start_of_S. lia. Qed.

  Lemma width_max : forall n r, r < m ->
    part_of n m r <= lmax (lsub (map (fun i => start_of n m (S i)) (seq 0 m)) (map (start_of n m) (seq 0 m))).
  Proof.
    intros n r Hr. apply lmax_ge. unfold lsub. rewrite <- (width n r Hr). rewrite !nth_map_seq by auto.
    apply in_map_iff. exists (start_of n m (S r), start_of n m r). split; auto.
    apply nth_error_In with r. rewrite nth_error_combine, !nth_error_map_seq by auto. reflexivity.
  Qed.

  Lemma gshape_nth : forall k d, nth_error gshape k = Some d ->
    (k = ka -> d = na) /\ (k = kb -> d = nb).
  Proof.
    intros k d H. split; intros ->; unfold na, nb; now rewrite (nth_error_nth _ _ 0 H).
  Qed.

  Lemma start_bound : forall n r, r < m -> start_of n m r + part_of n m r <= n.
  Proof.
    intros n r Hr. rewrite <- start_of_S. rewrite <- (start_of_m n m) at 2 by lia. apply start_of_mono. lia.
  Qed.

  (** The shape exchanged between ranks [q] (old axis) and [r] (new axis). *)
  Definition piece_shape (q r : nat) : list nat :=
    imap (fun k d => if k =? ka then part_of na m q else if k =? kb then part_of nb m r else d) gshape.

  Lemma block_shape : forall q st, q < m -> st < m -> shp (block kb sac eac locals q st) = piece_shape q st.
  Proof.
    intros q st Hq Hst. unfold block, array_split, view. cbn [shp].
    destruct (Hl q Hq) as [E _]. rewrite E, set_nth_imap, imap_imap. unfold piece_shape.
    apply imap_ext_in. intros k d Hk. destruct (gshape_nth k d Hk) as [_ Db].
    unfold upd, full_box. destruct (Nat.eqb_spec k kb) as [->|Nk].
    - destruct (Nat.eqb_spec kb ka); [congruence|].
      cbn [rlen]. rewrite (Db eq_refl).
      replace (st + 1 + 1) with (S (S st)) by lia. replace (st + 1) with (S st) by lia. cbn [nth].
      assert (S1 : nth st (nth 0 sac 0 :: eac) 0 = start_of nb m st).
      { destruct st as [|st]; cbn [nth].
        - unfold sac. now rewrite nth_map_seq by lia.
        - unfold eac. rewrite nth_map_seq by lia. reflexivity. }
      assert (S2 : nth st (eac ++ [nth kb (imap (fun j y => if j =? ka then part_of (nth ka gshape 0) m q else y) gshape) 0]) 0
                   = start_of nb m (S st)).
      { rewrite app_nth1 by (unfold eac; rewrite map_length, seq_length; auto). unfold eac. now rewrite nth_map_seq by auto. }
      replace (nth (S st) ((nth 0 sac 0 :: eac) ++
          [nth kb (imap (fun j y => if j =? ka then part_of (nth ka gshape 0) m q else y) gshape) 0]) 0)
        with (start_of nb m (S st)) by (symmetry; exact S2).
      replace (nth st ((nth 0 sac 0 :: eac) ++
          [nth kb (imap (fun j y => if j =? ka then part_of (nth ka gshape 0) m q else y) gshape) 0]) 0)
        with (start_of nb m st).
      2:{ rewrite app_nth1 by (cbn; unfold eac; rewrite map_length, seq_length; lia). now rewrite S1. }
      pose proof (start_bound nb st Hst). rewrite start_of_S. lia.
    - cbn [rlen]. reflexivity.
  Qed.

  Lemma block_elt : forall q st idx, q < m -> st < m -> InShape idx (piece_shape q st) ->
    elt (block kb sac eac locals q st) idx = Some (G (shift ka (start_of na m q) (shift kb (start_of nb m st) idx))).
  Proof.
    intros q st idx Hq Hst Hi. unfold block, array_split, view. cbn [elt].
    replace (st + 1 + 1) with (S (S st)) by lia. replace (st + 1) with (S st) by lia. cbn [nth].
    assert (S1 : nth st ((nth 0 sac 0 :: eac) ++ [nth kb (shp (locals q)) 0]) 0 = start_of nb m st).
    { rewrite app_nth1 by (cbn; unfold eac; rewrite map_length, seq_length; lia).
      destruct st as [|st]; cbn [nth].
      - unfold sac. now rewrite nth_map_seq by lia.
      - unfold eac. rewrite nth_map_seq by lia. reflexivity. }
    rewrite S1. destruct (Hl q Hq) as [E V].
    assert (J : imap (fun k x => x + rstart (upd full_box kb (start_of nb m st,
        nth (S st) ((nth 0 sac 0 :: eac) ++ [nth kb (shp (locals q)) 0]) 0) k)) idx
        = shift kb (start_of nb m st) idx).
    { rewrite shift_imap. apply imap_ext_in. intros k x _. unfold upd, full_box.
      destruct (Nat.eqb_spec k kb); cbn [rstart]; lia. }
    rewrite J. rewrite V; [reflexivity|].
    apply inshape_iff in Hi as [Li Hi]. apply inshape_iff. rewrite E, shift_imap, length_imap, length_set_nth.
    unfold piece_shape in Li, Hi. rewrite length_imap in Li. split; [exact Li|].
    intros k x d Hx Hd. rewrite nth_error_imap in Hx. rewrite nth_error_set_nth in Hd.
    destruct (nth_error gshape k) as [g|] eqn:Eg; [|discriminate]. cbn in Hd. injection Hd as <-.
    destruct (nth_error idx k) as [y|] eqn:Ey; [|discriminate]. cbn in Hx. injection Hx as <-.
    specialize (Hi k y). rewrite nth_error_imap, Eg in Hi. specialize (Hi _ Ey eq_refl).
    destruct (gshape_nth k g Eg) as [Da Db].
    destruct (Nat.eqb_spec k ka) as [Ek|]; destruct (Nat.eqb_spec k kb) as [Ek'|]; try congruence; auto.
    rewrite (Db Ek'). pose proof (start_bound nb st Hst). lia.
  Qed.

  Definition send_ok (q k : nat) (sb : nd (option A)) : Prop :=
    shp sb = buffer_shape gshape ka kb sac eac sar ear q
    /\ match k with
       | 0 => True
       | S i => forall idx, InShape idx (piece_shape q (send_to m q i)) ->
           elt sb idx = Some (G (shift ka (start_of na m q) (shift kb (start_of nb m (send_to m q i)) idx)))
       end.

  Lemma send_spec : forall q k, q < m -> k <= m ->
    exists sb, send_after gshape m ka kb sac eac sar ear locals q k = Ok sb /\ send_ok q k sb.
  Proof.
    intros q k Hq. induction k as [|i IH]; intros Hk.
    - eexists. split; [reflexivity|]. split; reflexivity.
    - destruct IH as [sb [E1 [Hs _]]]; [lia|]. cbn [send_after]. rewrite E1. cbn [rbind].
      destruct (partners m q i Hq ltac:(lia)) as [Hst _]. set (st := send_to m q i) in *.
      unfold assign. rewrite shape_eqb_true.
      + eexists. split; [reflexivity|]. split; [exact Hs|]. fold st. intros idx Hi. cbn [elt].
        assert (Bx : in_box (upd (upd full_box ka (0, nth q ear 0 - nth q sar 0)) kb (0, nth st eac 0 - nth st sac 0)) idx = true).
        { apply in_box_iff. intros k x Hx. unfold sac, eac, sar, ear. rewrite !width by auto.
          unfold upd, full_box. apply inshape_iff in Hi as [Li Hi].
          assert (Lk : k < length gshape).
          { unfold piece_shape in Li. rewrite length_imap in Li. rewrite <- Li. apply nth_error_Some. congruence. }
          destruct (nth_error gshape k) as [g|] eqn:Eg; [|apply nth_error_None in Eg; lia].
          specialize (Hi k x). unfold piece_shape in Hi. rewrite nth_error_imap, Eg in Hi.
          specialize (Hi _ Hx eq_refl).
          destruct (Nat.eqb_spec k kb) as [->|]; [destruct (Nat.eqb_spec kb ka); [congruence|]|];
            cbn [in_range]; [apply andb_true_intro; rewrite Nat.leb_le, Nat.ltb_lt; lia|].
          destruct (Nat.eqb_spec k ka); cbn [in_range]; auto.
          apply andb_true_intro; rewrite Nat.leb_le, Nat.ltb_lt; lia. }
        rewrite Bx. rewrite imap_id.
        * now apply block_elt.
        * intros k x _. unfold upd, full_box. destruct (k =? kb), (k =? ka); cbn [rstart]; lia.
      + rewrite Hs. rewrite block_shape by auto. unfold buffer_shape, target_shape, piece_shape.
        rewrite !set_nth_imap, !imap_imap. apply imap_ext_in. intros k d Hkd.
        unfold upd, full_box. unfold sac, eac, sar, ear. rewrite !width by auto.
        pose proof (width_max na q Hq). pose proof (width_max nb st Hst).
        destruct (Nat.eqb_spec k kb), (Nat.eqb_spec k ka); subst; try congruence; cbn [rlen]; lia.
  Qed.

  Definition target_ok (r k : nat) (t : nd (option A)) : Prop :=
    shp t = target_shape gshape kb sac eac r
    /\ forall idx x, InShape idx (shp t) -> nth_error idx ka = Some x ->
         (exists i, i < k /\ start_of na m (recv_from m r i) <= x < start_of na m (S (recv_from m r i))) ->
         elt t idx = Some (G (shift kb (start_of nb m r) idx)).

  Lemma target_spec : forall r k, r < m -> k <= m ->
    exists t, target_after gshape m ka kb sac eac sar ear locals r k = Ok t /\ target_ok r k t.
  Proof.
    intros r k Hr. induction k as [|i IH]; intros Hk.
    - eexists. split; [reflexivity|]. split; [reflexivity|]. intros idx x _ _ [j [Hj _]]. lia.
    - destruct IH as [t [E1 [Hs Ht]]]; [lia|]. cbn [target_after]. rewrite E1. cbn [rbind].
      destruct (partners m r i Hr ltac:(lia)) as [_ [Hq [_ Hback]]]. set (q := recv_from m r i) in *.
      destruct (send_spec q (S i) Hq Hk) as [sb [E2 [Ss Sv]]]. 
      replace (rbind (send_after gshape m ka kb sac eac sar ear locals q i) _)
        with (send_after gshape m ka kb sac eac sar ear locals q (S i)) by reflexivity.
      rewrite E2. cbn [rbind]. rewrite Hback in Sv.
      unfold assign. rewrite shape_eqb_true.
      + eexists. split; [reflexivity|]. split; [exact Hs|]. cbn [shp elt]. intros idx x Hi Hx Hex.
        destruct (in_box (upd full_box ka (nth q sar 0, nth q ear 0)) idx) eqn:Bx.
        * assert (Bd : start_of na m q <= x < start_of na m (S q)).
          { rewrite in_box_iff in Bx. specialize (Bx ka x Hx). unfold upd in Bx. rewrite Nat.eqb_refl in Bx.
            unfold sar, ear in Bx. rewrite !nth_map_seq in Bx by auto. cbn [in_range] in Bx.
            apply andb_prop in Bx as [B1 B2]. apply Nat.leb_le in B1. apply Nat.ltb_lt in B2. lia. }
          cbn [view elt]. rewrite imap_imap.
          assert (J : imap (fun k x0 => x0 - rstart (upd full_box ka (nth q sar 0, nth q ear 0) k)
                + rstart (upd (upd full_box kb (0, nth r eac 0 - nth r sac 0)) ka (0, nth q ear 0 - nth q sar 0) k)) idx
              = imap (fun k x0 => if k =? ka then x0 - start_of na m q else x0) idx).
          { apply imap_ext_in. intros k y _. unfold upd, full_box. unfold sar. rewrite nth_map_seq by auto.
            destruct (k =? ka), (k =? kb); cbn [rstart]; lia. }
          rewrite J. rewrite Sv.
          -- f_equal. f_equal. rewrite !shift_imap, !imap_imap. apply imap_ext_in. intros k y Hy.
             destruct (Nat.eqb_spec k ka) as [Ek|]; destruct (Nat.eqb_spec k kb); try congruence.
             assert (y = x) as -> by congruence. lia.
          -- apply inshape_iff in Hi as [Li Hi]. rewrite Hs in Li, Hi. unfold target_shape in Li, Hi.
             rewrite length_set_nth in Li. apply inshape_iff. unfold piece_shape. rewrite !length_imap. split; auto.
             intros k y d Hy Hd. rewrite nth_error_imap in Hy, Hd.
             destruct (nth_error gshape k) as [g|] eqn:Eg; [|discriminate]. cbn in Hd. injection Hd as <-.
             destruct (nth_error idx k) as [z|] eqn:Ez; [|discriminate]. cbn in Hy. injection Hy as <-.
             specialize (Hi k z). rewrite nth_error_set_nth, Eg in Hi. specialize (Hi _ Ez eq_refl).
             cbn in Hi. unfold eac, sac in Hi. rewrite width in Hi by auto.
             destruct (Nat.eqb_spec k ka) as [->|]; auto.
             assert (z = x) as -> by congruence. rewrite start_of_S in Bd. lia.
        * destruct Hex as [j [Hj Bj]]. destruct (Nat.eq_dec j i) as [->|].
          -- exfalso. fold q in Bj. assert (T : in_box (upd full_box ka (nth q sar 0, nth q ear 0)) idx = true); [|congruence].
             apply in_box_iff. intros k y Hy. unfold upd, full_box. destruct (Nat.eqb_spec k ka) as [->|]; auto.
             assert (y = x) as -> by congruence. unfold sar, ear. rewrite !nth_map_seq by auto. cbn [in_range].
             apply andb_true_intro. rewrite Nat.leb_le, Nat.ltb_lt. lia.
          -- eapply Ht; eauto. exists j. split; [lia|exact Bj].
      + rewrite Hs. cbn [view shp]. rewrite Ss. unfold buffer_shape, target_shape.
        rewrite !set_nth_imap, !imap_imap. apply imap_ext_in. intros k d Hk'.
        destruct (gshape_nth k d Hk') as [Da Db].
        unfold upd, full_box. unfold sac, eac, sar, ear. rewrite !width by auto. rewrite !nth_map_seq by auto.
        pose proof (width_max na q Hq). pose proof (width_max nb r Hr). pose proof (start_bound na q Hq).
        rewrite start_of_S.
        destruct (Nat.eqb_spec k ka) as [Ea|], (Nat.eqb_spec k kb) as [Eb|]; try congruence; cbn [rlen];
          try (rewrite (Da Ea)); lia.
  Qed.

  Lemma exchange_share : forall r, r < m ->
    exists t, target_after gshape m ka kb sac eac sar ear locals r m = Ok t /\ IsShare G gshape m kb r t.
  Proof.
    intros r Hr. destruct (target_spec r m Hr ltac:(lia)) as [t [E [Hs Ht]]]. exists t. split; auto.
    split.
    - rewrite Hs. unfold target_shape. unfold eac, sac. now rewrite width by auto.
    - intros idx Hi. fold nb.
      assert (Ga : nth_error gshape ka = Some na) by (apply nth_error_nth'; auto).
      assert (Sa : nth_error (shp t) ka = Some na).
      { rewrite Hs. unfold target_shape. rewrite nth_error_set_nth, Ga. cbn.
        destruct (Nat.eqb_spec ka kb); congruence. }
      destruct (inshape_lt idx (shp t) ka na Hi Sa) as [x [Hx Lx]].
      eapply Ht; eauto.
      assert (W : exists q, q < m /\ start_of na m q <= x < start_of na m (S q)).
      { destruct (owner_exists na m m x) as [q Hq]; [rewrite start_of_m by lia; exact Lx|]. exists q. lia. }
      destruct W as [q [Hq B]]. destruct (receive_from_each m r q Hr Hq) as [i [Hi' <-]]. eauto.
  Qed.
End Ex.

(** *** Axis numbers *)
Lemma pyaxis_names : forall ndim a k, Names ndim a k -> pyaxis ndim a = Ok k.
Proof.
  intros ndim a k [Hk [->| ->]]; unfold pyaxis.
  - destruct (Z.leb_spec 0 (Z.of_nat k)), (Z.ltb_spec (Z.of_nat k) (Z.of_nat ndim)); cbn [andb]; try lia.
    now rewrite Nat2Z.id.
  - destruct (Z.leb_spec 0 (Z.of_nat k - Z.of_nat ndim)), (Z.ltb_spec (Z.of_nat k - Z.of_nat ndim) (Z.of_nat ndim)); cbn [andb]; try lia.
    destruct (Z.leb_spec (- Z.of_nat ndim) (Z.of_nat k - Z.of_nat ndim)), (Z.ltb_spec (Z.of_nat k - Z.of_nat ndim) 0); cbn [andb]; try lia.
    f_equal. lia.
Qed.

Lemma share_single : forall A (G : list nat -> A) gshape ka kb r arr,
  kb < length gshape -> ka < length gshape ->
  r < 1 -> IsShare G gshape 1 ka r arr -> IsShare G gshape 1 kb r arr.
Proof.
  intros A G gshape ka kb r arr Hb Ha Hr [E V]. assert (r = 0) as -> by lia.
  assert (P : forall n, part_of n 1 0 = n) by (intros; unfold part_of; rewrite Nat.div_1_r; cbn; lia).
  assert (Z : forall k, k < length gshape -> set_nth k (part_of (nth k gshape 0) 1 0) gshape = gshape).
  { intros k Hk. rewrite P, set_nth_imap. apply imap_id. intros j x Hj.
    destruct (Nat.eqb_spec j k) as [->|]; auto. now rewrite (nth_error_nth _ _ 0 Hj). }
  rewrite Z in E by auto. split.
  - now rewrite Z.
  - intros idx Hi. rewrite V by auto. f_equal. f_equal.
    assert (S0 : forall n, start_of n 1 0 = 0) by reflexivity. rewrite !S0. rewrite !shift_imap.
    apply imap_ext_in. intros. destruct (_ =? _), (_ =? _); lia.
Qed.

Lemma redistribute_share : forall A (G : list nat -> A) gshape m a b ka kb locals r,
  1 <= m -> r < m -> Names (length gshape) a ka -> Names (length gshape) b kb ->
  ka <> kb \/ a = b ->
  (forall q, q < m -> IsShare G gshape m ka q (locals q)) ->
  exists arr, redistribute gshape m a b locals r = Ok arr /\ IsShare G gshape m kb r arr.
Proof.
  intros A G gshape m a b ka kb locals r Hm Hr Na Nb Hab Hl. unfold redistribute.
  destruct (Z.eqb_spec a b) as [E|E].
  - subst b. exists (locals r). split; auto.
    assert (ka = kb) as <- by (destruct Na as [? [?|?]], Nb as [? [?|?]]; lia). auto.
  - assert (ka <> kb) by (destruct Hab; congruence).
    rewrite (pyaxis_names _ _ _ Nb).
    destruct (Nat.eqb_spec m 1) as [->|].
    + exists (locals r). split; auto. destruct Na, Nb. apply (share_single A G gshape ka kb); auto.
    + cbn [rbind]. rewrite (pyaxis_names _ _ _ Na). cbn [rbind]. unfold split_all.
      rewrite !split_m_closed' by lia. cbn [rbind]. destruct Na, Nb.
      apply (exchange_share G gshape m ka kb); auto.
Qed.

(** Equal contents. *)
Definition same_array {A} (x y : nd (option A)) : Prop :=
  shp x = shp y /\ forall idx, InShape idx (shp x) -> elt x idx = elt y idx.

Lemma redistribute_back : forall A (G : list nat -> A) gshape m a b ka kb locals,
  1 <= m -> Names (length gshape) a ka -> Names (length gshape) b kb -> ka <> kb ->
  (forall q, q < m -> IsShare G gshape m ka q (locals q)) ->
  exists there, (forall q, q < m -> redistribute gshape m a b locals q = Ok (there q))
    /\ forall r, r < m -> exists back, redistribute gshape m b a there r = Ok back
         /\ same_array back (locals r).
Proof.
  intros A G gshape m a b ka kb locals Hm Na Nb Hab Hl.
  assert (R : forall q, q < m -> exists arr, redistribute gshape m a b locals q = Ok arr /\ IsShare G gshape m kb q arr).
  { intros q Hq. eapply redistribute_share; eauto. }
  exists (fun q => match redistribute gshape m a b locals q with Ok t => t | Err _ => locals q end).
  split.
  - intros q Hq. destruct (R q Hq) as [t [-> _]]. reflexivity.
  - intros r Hr.
    destruct (redistribute_share A G gshape m b a kb ka
      (fun q => match redistribute gshape m a b locals q with Ok t => t | Err _ => locals q end) r) as [back [E [S1 S2]]]; auto.
    { intros q Hq. destruct (R q Hq) as [t [-> S]]. exact S. }
    exists back. split; auto. destruct (Hl r Hr) as [L1 L2]. split; [congruence|].
    intros idx Hi. rewrite S2 by auto. symmetry. apply L2. congruence.
Qed.

(** *** Gathering *)
Lemma collect_whole : forall A (G : list nat -> A) gshape m k pieces,
  1 <= m -> k < length gshape ->
  (forall q, q < m -> IsShare G gshape m k q (pieces q)) ->
  exists arr, collect gshape m k pieces = Ok arr /\ IsWhole G gshape arr.
Proof.
  intros A G gshape m k pieces Hm Hk Hp. unfold collect, split_all. rewrite split_m_closed' by lia. cbn [rbind].
  set (n := nth k gshape 0) in *.
  match goal with |- exists arr, fold_left ?F _ _ = _ /\ _ => set (f := F) end.
  assert (L : forall j, j <= m -> exists arr, fold_left f (seq 0 j) (Ok (nd_empty gshape)) = Ok arr
     /\ shp arr = gshape /\ forall idx x, InShape idx gshape -> nth_error idx k = Some x ->
          x < start_of n m j -> elt arr idx = Some (G idx)).
  { induction j as [|j IH]; intros Hj.
    - eexists. split; [reflexivity|]. split; [reflexivity|]. intros. rewrite start_of_0 in *. lia.
    - destruct IH as [arr [E [Hs Hv]]]; [lia|]. rewrite seq_S, fold_left_app, E. cbn [fold_left plus].
      unfold f at 1. cbn [rbind]. destruct (Hp j ltac:(lia)) as [P1 P2]. fold n in P1.
      assert (N0 : nth j (map (part_of n m) (seq 0 m)) 0 = part_of n m j) by (apply nth_map_seq; lia).
      assert (N1 : nth j (map (start_of n m) (seq 0 m)) 0 = start_of n m j) by (apply nth_map_seq; lia).
      assert (N2 : nth j (map (fun i => start_of n m (S i)) (seq 0 m)) 0 = start_of n m (S j))
        by (apply (nth_map_seq m (fun i => start_of n m (S i))); lia).
      rewrite N0, N1, N2. rewrite shape_eqb_true by auto. unfold assign. cbn [shp elt].
      rewrite shape_eqb_true.
      + eexists. split; [reflexivity|]. split; [exact Hs|]. cbn [elt]. intros idx x Hi Hx Lx.
        destruct (in_box (upd full_box k (start_of n m j, start_of n m (S j))) idx) eqn:Bx.
        * rewrite in_box_iff in Bx. specialize (Bx k x Hx). unfold upd in Bx. rewrite Nat.eqb_refl in Bx.
          cbn [in_range] in Bx. apply andb_prop in Bx as [B1 B2]. apply Nat.leb_le in B1. apply Nat.ltb_lt in B2.
          assert (J : imap (fun k0 x0 => x0 - rstart (upd full_box k (start_of n m j, start_of n m (S j)) k0)) idx
              = imap (fun k0 x0 => if k0 =? k then x0 - start_of n m j else x0) idx).
          { apply imap_ext_in. intros k0 y _. unfold upd, full_box. destruct (k0 =? k); cbn [rstart]; lia. }
          rewrite J, P2.
          -- f_equal. f_equal. fold n. rewrite shift_imap, imap_imap. apply imap_id. intros k0 y Hy.
             destruct (Nat.eqb_spec k0 k) as [->|]; auto. assert (y = x) as -> by congruence. lia.
          -- rewrite P1. apply inshape_iff in Hi as [Li Hi]. apply inshape_iff. rewrite length_imap, length_set_nth.
             split; auto. intros k0 y d Hy Hd. rewrite nth_error_imap in Hy. rewrite nth_error_set_nth in Hd.
             destruct (nth_error gshape k0) as [g|] eqn:Eg; [|discriminate]. cbn in Hd. injection Hd as <-.
             destruct (nth_error idx k0) as [z|] eqn:Ez; [|discriminate]. cbn in Hy. injection Hy as <-.
             destruct (Nat.eqb_spec k0 k) as [->|]; [|eapply Hi; eauto].
             assert (z = x) as -> by congruence. rewrite start_of_S in B2. lia.
        * eapply Hv; eauto. destruct (Nat.lt_ge_cases x (start_of n m j)); auto. exfalso.
          assert (T : in_box (upd full_box k (start_of n m j, start_of n m (S j))) idx = true); [|congruence].
          apply in_box_iff. intros k0 y Hy. unfold upd, full_box. destruct (Nat.eqb_spec k0 k) as [->|]; auto.
          assert (y = x) as -> by congruence. cbn [in_range]. apply andb_true_intro. rewrite Nat.leb_le, Nat.ltb_lt. lia.
      + rewrite Hs, set_nth_imap. apply imap_ext_in. intros k0 d Hd. unfold upd, full_box.
        destruct (Nat.eqb_spec k0 k) as [->|]; auto. cbn [rlen].
        assert (d = n) as -> by (unfold n; now rewrite (nth_error_nth _ _ 0 Hd)).
        pose proof (start_of_mono n m (S j) m ltac:(lia)). rewrite start_of_m in * by lia. rewrite start_of_S in *. lia. }
  destruct (L m ltac:(lia)) as [arr [E [Hs Hv]]]. exists arr. split; auto. split; auto. intros idx Hi.
  destruct (inshape_lt idx gshape k n Hi) as [x [Hx Lx]]; [apply nth_error_nth'; auto|].
  eapply Hv; eauto. rewrite start_of_m by lia. exact Lx.
Qed.

Lemma allgather_whole : forall A (G : list nat -> A) gshape m a k locals,
  1 <= m -> Names (length gshape) a k ->
  (forall q, q < m -> IsShare G gshape m k q (locals q)) ->
  exists arr, allgather gshape m a locals = Ok arr /\ IsWhole G gshape arr.
Proof.
  intros A G gshape m a k locals Hm Na Hl. unfold allgather. rewrite (pyaxis_names _ _ _ Na). cbn [rbind].
  destruct Na. now apply collect_whole.
Qed.

Lemma gather_whole : forall A (G : list nat -> A) gshape m a k locals root,
  1 <= m -> root < m -> Names (length gshape) a k ->
  (forall q, q < m -> IsShare G gshape m k q (locals q)) ->
  (exists arr, gather gshape m a locals root true root = Ok (Some arr) /\ IsWhole G gshape arr)
  /\ forall d r, r <> root -> gather gshape m a locals root d r = Ok None.
Proof.
  intros A G gshape m a k locals root Hm Hr Na Hl. unfold gather. rewrite (pyaxis_names _ _ _ Na). cbn [rbind].
  split.
  - rewrite Nat.eqb_refl. destruct Na as [Hk _].
    destruct (collect_whole A G gshape m k (fun ri => if (ri =? root) && negb true then nd_empty (shp (locals ri)) else locals ri))
      as [arr [-> W]]; auto.
    + intros q Hq. rewrite andb_false_r. auto.
    + cbn [rbind]. eauto.
  - intros d r N. apply Nat.eqb_neq in N. now rewrite N.
Qed.

Definition ex_global (idx : list nat) : nat := match idx with [i; j] => 10 * i + j | _ => 0 end.
Definition ex_locals (axis m : nat) (gshape : list nat) (r : nat) : nd (option nat) :=
  mknd (set_nth axis (part_of (nth axis gshape 0) m r) gshape)
       (fun idx => Some (ex_global (shift axis (start_of (nth axis gshape 0) m r) idx))).

Lemma ex_share : forall gshape axis m r, IsShare ex_global gshape m axis r (ex_locals axis m gshape r).
Proof. intros. split; reflexivity. Qed.

Lemma gather_refuted : exists (G : list nat -> nat) gshape m locals root,
  1 <= m /\ root < m /\ (forall q, q < m -> IsShare G gshape m 0 q (locals q))
  /\ exists arr, gather gshape m 0 locals root false root = Ok (Some arr) /\ ~ IsWhole G gshape arr.
Proof.
  exists ex_global, [4; 2], 2, (ex_locals 0 2 [4; 2]), 0. split; [auto|]. split; [auto|].
  split; [intros; apply ex_share|]. eexists. split; [reflexivity|].
  intros [_ H]. specialize (H [0; 0]). cbn in H. discriminate H. repeat constructor.
Qed.

Lemma redistribute_refuted : exists (G : list nat -> nat) gshape m locals r,
  1 <= m /\ r < m /\ Names (length gshape) (-1) 0 /\ (forall q, q < m -> IsShare G gshape m 0 q (locals q))
  /\ redistribute gshape m 0 (-1) locals r = Err ValueError.
Proof.
  exists ex_global, [4], 2, (ex_locals 0 2 [4]), 1. split; [auto|]. split; [auto|].
  split; [split; [cbn; lia|right; reflexivity]|].
  split; [intros; apply ex_share|]. reflexivity.
Qed.

Lemma redistribute_missing : forall A gshape m a b (locals : nat -> nd (option A)) r,
  a <> b -> (forall k, ~ Names (length gshape) b k) ->
  redistribute gshape m a b locals r = Err (if m =? 1 then AxisException else IndexError).
Proof.
  intros A gshape m a b locals r Hab Hn. unfold redistribute.
  rewrite (proj2 (Z.eqb_neq a b) Hab).
  assert (E : pyaxis (length gshape) b = Err IndexError).
  { unfold pyaxis. destruct ((0 <=? b) && (b <? Z.of_nat (length gshape)))%Z eqn:E1.
    - exfalso. apply (Hn (Z.to_nat b)). split; lia.
    - destruct ((- Z.of_nat (length gshape) <=? b) && (b <? 0))%Z eqn:E2; [|reflexivity].
      exfalso. apply (Hn (Z.to_nat (b + Z.of_nat (length gshape)))). split; lia. }
  rewrite E. destruct (m =? 1); reflexivity.
Qed.
