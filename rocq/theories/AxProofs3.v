From Coq Require Import List ZArith Bool Lia.
From Verif Require Import PyBase SliceModel RedModel RedProofs AxModel AxSpec AxProofs.
Import ListNotations.
Open Scope Z_scope.

Lemma fold_mul : forall l a, fold_left Z.mul l a = a * prodZ l.
Proof.
  induction l as [|x l IH]; intros a; cbn [fold_left prodZ fold_right]; [lia|].
  rewrite IH. unfold prodZ. lia.
Qed.
Lemma zprod_prodZ : forall l, zprod l = prodZ l.
Proof. intros l. unfold zprod. rewrite fold_mul. lia. Qed.
Lemma prodZ_cons : forall x l, prodZ (x :: l) = x * prodZ l.
Proof. reflexivity. Qed.
Lemma prodZ_app : forall a b, prodZ (a ++ b) = prodZ a * prodZ b.
Proof.
  induction a as [|x a IH]; intros b; cbn [app]; [change (prodZ []) with 1; lia|].
  rewrite !prodZ_cons, IH. lia.
Qed.

Definition wilds (l : list Z) : nat := count_occ Z.eq_dec l (-1).
Definition rest_of (l : list Z) : list Z := filter (fun r => negb (r =? -1)) l.
Definition fill (v r : Z) : Z := if r =? -1 then v else r.

Lemma wilds_cons : forall x l, wilds (x :: l) = ((if (x =? -1)%Z then 1 else 0) + wilds l)%nat.
Proof.
  intros x l. unfold wilds. cbn [count_occ]. destruct (Z.eq_dec x (-1)) as [->|H]; [reflexivity|].
  destruct (Z.eqb_spec x (-1)); [contradiction|reflexivity].
Qed.
Lemma wilds_app : forall a b, wilds (a ++ b) = (wilds a + wilds b)%nat.
Proof. intros. unfold wilds. apply count_occ_app. Qed.
Lemma rest_wild0 : forall l, wilds l = 0%nat -> rest_of l = l.
Proof.
  induction l as [|x l IH]; intros H; [reflexivity|]. rewrite wilds_cons in H.
  unfold rest_of in *. cbn [filter]. destruct (x =? -1); [lia|]. cbn [negb]. rewrite IH by lia. reflexivity.
Qed.
Lemma fill_wild0 : forall v l, wilds l = 0%nat -> map (fill v) l = l.
Proof.
  induction l as [|x l IH]; intros H; [reflexivity|]. rewrite wilds_cons in H.
  cbn [map]. unfold fill at 1. destruct (x =? -1); [lia|]. rewrite IH by lia. reflexivity.
Qed.
Lemma rest_cons : forall x l, rest_of (x :: l) = if x =? -1 then rest_of l else x :: rest_of l.
Proof. intros. unfold rest_of. cbn [filter]. destruct (x =? -1); reflexivity. Qed.
Lemma rest_app : forall a b, rest_of (a ++ b) = rest_of a ++ rest_of b.
Proof. intros. unfold rest_of. apply filter_app. Qed.
Lemma prod_fill1 : forall v l, wilds l = 1%nat -> prodZ (map (fill v) l) = v * prodZ (rest_of l).
Proof.
  induction l as [|x l IH]; intros H; [discriminate|]. rewrite wilds_cons in H.
  rewrite rest_cons. cbn [map]. rewrite prodZ_cons. unfold fill at 1. destruct (x =? -1).
  - rewrite fill_wild0, rest_wild0 by lia. reflexivity.
  - rewrite IH, prodZ_cons by lia. lia.
Qed.

Lemma scan_cons : forall x l ii w sz,
  scan_shape (Some x :: l) ii w sz =
  if x =? -1 then match w with None => scan_shape l (S ii) (Some ii) sz | Some _ => Err ValueError end
  else scan_shape l (S ii) w (sz * x).
Proof.
  intros x l ii w sz. destruct x as [|p|p]; try reflexivity. destruct p; reflexivity.
Qed.

Lemma scan_have : forall l ii w sz,
  scan_shape (map Some l) ii (Some w) sz =
  if Nat.eqb (wilds l) 0 then Ok (Some w, sz * prodZ (rest_of l)) else Err ValueError.
Proof.
  induction l as [|x l IH]; intros ii w sz; cbn [map].
  - cbn [scan_shape]. cbn. do 2 f_equal. lia.
  - rewrite scan_cons, wilds_cons, rest_cons. destruct (x =? -1); [reflexivity|].
    rewrite IH. cbn [Nat.add]. destruct (Nat.eqb (wilds l) 0); [|reflexivity].
    rewrite prodZ_cons. do 2 f_equal. lia.
Qed.

Lemma scan_none : forall l ii sz v,
  match scan_shape (map Some l) ii None sz with
  | Ok (None, s) => wilds l = 0%nat /\ s = sz * prodZ (rest_of l)
  | Ok (Some w, s) => wilds l = 1%nat /\ s = sz * prodZ (rest_of l)
       /\ (ii <= w)%nat /\ set_nth (w - ii) v l = map (fill v) l
  | Err _ => (1 < wilds l)%nat
  end.
Proof.
  induction l as [|x l IH]; intros ii sz v; cbn [map].
  - cbn. split; [reflexivity|lia].
  - rewrite scan_cons, wilds_cons, rest_cons.
    destruct (x =? -1) eqn:Ex.
    + rewrite scan_have. destruct (Nat.eqb_spec (wilds l) 0) as [E|E]; [|lia].
      split; [lia|]. split; [reflexivity|]. split; [lia|]. rewrite Nat.sub_diag.
      cbn [set_nth]. unfold fill at 1. rewrite Ex.
      change (set_nth 0 v (x :: l)) with (v :: l). rewrite fill_wild0 by exact E. reflexivity.
    + specialize (IH (S ii) (sz * x) v).
      destruct (scan_shape (map Some l) (S ii) None (sz * x)) as [([w|], s)|e].
      * destruct IH as (H1 & H2 & H3 & H4). split; [exact H1|]. rewrite prodZ_cons.
        split; [lia|]. split; [lia|].
        replace (w - ii)%nat with (S (w - S ii)) by lia.
        change (set_nth (S (w - S ii)) v (x :: l)) with (x :: set_nth (w - S ii) v l).
        rewrite H4. unfold fill at 2. rewrite Ex. reflexivity.
      * rewrite prodZ_cons. destruct IH. split; [assumption|lia].
      * exact IH.
Qed.

Lemma known_some : forall l, known (map Some l) = l.
Proof. intros l. unfold known. rewrite map_map. apply map_id. Qed.

(** What [_check_shapes] accepts and returns. *)
Lemma check_shapes_spec : forall cur req out,
  check_shapes cur (map Some req) = Ok out <->
  (wilds req = 0%nat /\ prodZ req = prodZ cur /\ out = req) \/
  (wilds req = 1%nat /\ prodZ (rest_of req) <> 0 /\ (prodZ (rest_of req) | prodZ cur)
   /\ out = map (fill (prodZ cur / prodZ (rest_of req))) req).
Proof.
  intros cur req out. unfold check_shapes. rewrite zprod_prodZ.
  pose proof (scan_none req 0 1 (prodZ cur / prodZ (rest_of req))) as HS.
  destruct (scan_shape (map Some req) 0 None 1) as [([w|], s)|e]; cbn [rbind].
  - destruct HS as (H1 & H2 & H3 & H4). rewrite Z.mul_1_l in H2. subst s.
    rewrite Nat.sub_0_r in H4. rewrite known_some.
    destruct (Z.eqb_spec (prodZ (rest_of req)) 0) as [E|E].
    { split; [discriminate|]. intros [(H & _)|(_ & H & _)]; [congruence|contradiction]. }
    destruct (Z.eqb_spec (prodZ cur mod prodZ (rest_of req)) 0) as [Em|Em].
    + rewrite H4. split.
      * intros H. injection H as <-. right. repeat split; try assumption. apply Z.mod_divide; assumption.
      * intros [(H & _)|(_ & _ & _ & ->)]; [congruence|reflexivity].
    + split; [discriminate|]. intros [(H & _)|(_ & _ & H & _)]; [congruence|].
      exfalso. apply Em. apply Z.mod_divide; assumption.
  - destruct HS as (H1 & H2). rewrite Z.mul_1_l in H2. subst s. rewrite known_some.
    rewrite (rest_wild0 _ H1).
    destruct (Z.eqb_spec (prodZ cur) (prodZ req)) as [E|E].
    + split.
      * intros H. injection H as <-. left. repeat split; try assumption. symmetry. exact E.
      * intros [(_ & _ & ->)|(H & _)]; [reflexivity|congruence].
    + split; [discriminate|]. intros [(_ & H & _)|(H & _)]; congruence.
  - split; [discriminate|]. intros [(H & _)|(H & _)]; lia.
Qed.

Lemma scan_bad : forall l ii w sz, In None l -> exists e, scan_shape l ii w sz = Err e.
Proof.
  induction l as [|[x|] l IH]; intros ii w sz H; [contradiction| |].
  - destruct H as [H|H]; [discriminate|]. rewrite scan_cons.
    destruct (x =? -1); [destruct w; [eexists; reflexivity|]|]; apply IH, H.
  - eexists. reflexivity.
Qed.

Lemma index_none_spec : forall shape na, index_none shape = Some na ->
  exists pre rest, shape = map Some pre ++ None :: rest /\ length pre = na.
Proof.
  induction shape as [|[x|] shape IH]; intros na H; [discriminate| |].
  - cbn [index_none] in H. destruct (index_none shape) as [k|] eqn:E; [|discriminate].
    injection H as <-. destruct (IH k eq_refl) as (pre & rest & -> & <-).
    exists (x :: pre), rest. split; reflexivity.
  - injection H as <-. exists [], shape. split; reflexivity.
Qed.
Lemma index_none_app : forall pre rest, index_none (map Some pre ++ None :: rest) = Some (length pre).
Proof. induction pre as [|x pre IH]; intros rest; [reflexivity|]. cbn [map app index_none]. rewrite IH. reflexivity. Qed.
Lemma all_some : forall l : list (option Z), ~ In None l -> exists r, l = map Some r.
Proof.
  induction l as [|[x|] l IH]; intros H.
  - exists []. reflexivity.
  - destruct IH as (r & ->); [intros G; apply H; right; exact G|]. exists (x :: r). reflexivity.
  - exfalso. apply H. left. reflexivity.
Qed.
Lemma none_dec : forall l : list (option Z), In None l \/ ~ In None l.
Proof.
  induction l as [|[x|] l [IH|IH]]; [right; intros []|left; right; exact IH| |left; left; reflexivity|left; left; reflexivity].
  right. intros [H|H]; [discriminate|contradiction].
Qed.
Lemma set_nth_mid : forall {A} (a : list A) x y b, set_nth (length a) x (a ++ y :: b) = a ++ x :: b.
Proof.
  induction a as [|z a IH]; intros x y b; [reflexivity|]. cbn [length app].
  change (set_nth (S (length a)) x (z :: a ++ y :: b)) with (z :: set_nth (length a) x (a ++ y :: b)).
  rewrite IH. reflexivity.
Qed.

Lemma Filled_iff : forall cur req out,
  Filled cur req out <->
  Forall (fun o => 0 <= o) out /\
  ((wilds req = 0%nat /\ prodZ req = prodZ cur /\ out = req) \/
   (wilds req = 1%nat /\ prodZ (rest_of req) <> 0 /\ (prodZ (rest_of req) | prodZ cur)
    /\ out = map (fill (prodZ cur / prodZ (rest_of req))) req)).
Proof.
  intros cur req out. unfold Filled. fold (wilds req). fold (rest_of req).
  assert (F0 : forall rq ot, Forall2 (fun r o => r = -1 \/ o = r) rq ot -> wilds rq = 0%nat -> ot = rq).
  { intros rq ot H. induction H as [|r o rq ot Hr H IH]; intros W; [reflexivity|].
    rewrite wilds_cons in W. destruct (Z.eqb_spec r (-1)); [lia|]. destruct Hr as [| ->]; [contradiction|].
    rewrite IH by lia. reflexivity. }
  assert (F1 : forall rq ot, Forall2 (fun r o => r = -1 \/ o = r) rq ot -> wilds rq = 1%nat ->
     exists v, ot = map (fill v) rq).
  { intros rq ot H. induction H as [|r o rq ot Hr H IH]; intros W; [discriminate|].
    rewrite wilds_cons in W. destruct (Z.eqb_spec r (-1)) as [->|Hn].
    - exists o. cbn [map]. unfold fill at 1. cbn. rewrite fill_wild0 by lia. f_equal. apply F0; [assumption|lia].
    - destruct IH as (v & ->); [lia|]. exists v. cbn [map]. unfold fill at 2.
      destruct (Z.eqb_spec r (-1)); [contradiction|]. destruct Hr as [| ->]; [contradiction|reflexivity]. }
  split.
  - intros (H1 & H2 & H3 & H4). split; [exact H2|]. destruct H4 as [W|(W & P)].
    + left. pose proof (F0 _ _ H1 W) as E. subst out. repeat split; assumption.
    + right. destruct (F1 _ _ H1 W) as (v & ->). rewrite prod_fill1 in H3 by exact W.
      split; [exact W|]. split; [exact P|]. split; [exists v; symmetry; exact H3|].
      rewrite <- H3, Z.div_mul by exact P. reflexivity.
  - intros (H2 & [(W & P & ->)|(W & P & D & ->)]).
    + split; [|repeat split; try assumption; left; exact W].
      clear. induction req; constructor; [right; reflexivity|assumption].
    + split; [|split; [exact H2|split]].
      * generalize (prodZ cur / prodZ (rest_of req)). intros v. clear.
        induction req as [|r req IH]; constructor; [|exact IH]. unfold fill.
        destruct (Z.eqb_spec r (-1)); [left; assumption|right; reflexivity].
      * rewrite prod_fill1 by exact W. destruct D as (q & ->). rewrite Z.div_mul by exact P. reflexivity.
      * right. split; assumption.
Qed.

(** Putting the (positive) local length of the distributed axis on both sides
    changes nothing. *)
Lemma quot_cancel : forall L c p, 0 < L -> p <> 0 -> (L * c) / (L * p) = c / p.
Proof. intros. apply Z.div_mul_cancel_l; lia. Qed.
Lemma div_cancel : forall L c p, 0 < L -> (L * p | L * c) <-> (p | c).
Proof.
  intros L c p H. split.
  - intros D. apply (Z.mul_divide_cancel_l p c L); [lia|exact D].
  - intros D. apply Z.mul_divide_mono_l. exact D.
Qed.

Lemma check_with : forall L cur req out, 0 < L ->
  (exists o, check_shapes (L :: cur) (Some L :: map Some req) = Ok o /\ o = L :: out) <->
  ((wilds req = 0%nat /\ prodZ req = prodZ cur /\ out = req) \/
   (wilds req = 1%nat /\ prodZ (rest_of req) <> 0 /\ (prodZ (rest_of req) | prodZ cur)
    /\ out = map (fill (prodZ cur / prodZ (rest_of req))) req)).
Proof.
  intros L cur req out HL.
  assert (HLn : (L =? -1) = false) by (apply Z.eqb_neq; lia).
  change (Some L :: map Some req) with (map Some (L :: req)).
  split.
  - intros (o & H & ->). apply check_shapes_spec in H.
    rewrite wilds_cons, rest_cons, HLn, !prodZ_cons in H. cbn [Nat.add] in H.
    destruct H as [(W & P & E)|(W & P & D & E)].
    + left. injection E as ->. split; [exact W|]. split; [|reflexivity]. apply Z.mul_reg_l in P; [exact P|lia].
    + right. assert (Hp : prodZ (rest_of req) <> 0) by (intros G; rewrite G in P; lia).
      rewrite quot_cancel in E by assumption. apply div_cancel in D; [|exact HL].
      cbn [map] in E. unfold fill at 1 in E. rewrite HLn in E. injection E as ->.
      repeat split; assumption.
  - intros H. exists (L :: out). split; [|reflexivity]. apply check_shapes_spec.
    rewrite wilds_cons, rest_cons, HLn, !prodZ_cons. cbn [Nat.add].
    destruct H as [(W & P & ->)|(W & P & D & ->)].
    + left. rewrite P. repeat split. exact W.
    + right. rewrite quot_cancel by assumption. split; [exact W|]. split; [nia|].
      split; [apply div_cancel; assumption|]. cbn [map]. unfold fill at 2. rewrite HLn. reflexivity.
Qed.

Lemma check_comm : forall L cur req out, 0 < L ->
  (exists o, check_shapes (cur ++ [L]) (map Some req ++ [Some L]) = Ok o /\ firstn (length req) o = out) <->
  ((wilds req = 0%nat /\ prodZ req = prodZ cur /\ out = req) \/
   (wilds req = 1%nat /\ prodZ (rest_of req) <> 0 /\ (prodZ (rest_of req) | prodZ cur)
    /\ out = map (fill (prodZ cur / prodZ (rest_of req))) req)).
Proof.
  intros L cur req out HL.
  assert (HLn : (L =? -1) = false) by (apply Z.eqb_neq; lia).
  assert (W1 : wilds [L] = 0%nat) by (rewrite wilds_cons, HLn; reflexivity).
  assert (R1 : rest_of [L] = [L]) by (apply rest_wild0, W1).
  assert (P1 : forall l, prodZ (l ++ [L]) = L * prodZ l) by (intros l; rewrite prodZ_app; cbn; lia).
  change [Some L] with (map Some [L]). rewrite <- map_app.
  split.
  - intros (o & H & <-). apply check_shapes_spec in H.
    rewrite wilds_app, rest_app, W1, R1, !P1, Nat.add_0_r in H.
    destruct H as [(W & P & E)|(W & P & D & E)].
    + left. subst o. split; [exact W|]. rewrite firstn_app, Nat.sub_diag, firstn_all, firstn_O, app_nil_r.
      split; [|reflexivity]. apply Z.mul_reg_l in P; [exact P|lia].
    + right. assert (Hp : prodZ (rest_of req) <> 0) by (intros G; rewrite G in P; lia).
      rewrite quot_cancel in E by assumption. apply div_cancel in D; [|exact HL].
      subst o. rewrite map_app, firstn_app. rewrite map_length, Nat.sub_diag, firstn_O, app_nil_r.
      rewrite firstn_all2 by (rewrite map_length; lia).
      repeat split; assumption.
  - intros H. exists (out ++ [L]). split.
    + apply check_shapes_spec. rewrite wilds_app, rest_app, W1, R1, !P1, Nat.add_0_r.
      destruct H as [(W & P & ->)|(W & P & D & ->)].
      * left. rewrite P. repeat split. exact W.
      * right. rewrite quot_cancel by assumption. split; [exact W|]. split; [nia|].
        split; [apply div_cancel; assumption|]. rewrite map_app. f_equal. cbn [map]. unfold fill. rewrite HLn. reflexivity.
    + assert (E : length req = length out).
      { destruct H as [(_ & _ & ->)|(_ & _ & _ & ->)]; [reflexivity|]. rewrite map_length. reflexivity. }
      rewrite E, firstn_app, Nat.sub_diag, firstn_all, firstn_O. apply app_nil_r.
Qed.

Lemma mpi_reshape_form : forall pre L post preq preqs,
  mpi_reshape (pre ++ L :: post) (length pre) (map Some preq ++ None :: preqs) =
  rbind (check_shapes (L :: post) (Some L :: preqs)) (fun new_post =>
  rbind (check_shapes (pre ++ [L]) (map Some preq ++ [Some L])) (fun new_pre =>
  let out := firstn (length preq) new_pre ++ new_post in
  if forallb (Z.leb 0) out && (prodZ out =? prodZ (pre ++ L :: post)) then Ok (out, length preq)
  else Err ValueError)).
Proof.
  intros pre L post preq preqs. unfold mpi_reshape. rewrite index_none_app.
  replace (nth (length pre) (pre ++ L :: post) 0) with L.
  2:{ rewrite app_nth2 by lia. rewrite Nat.sub_diag. reflexivity. }
  replace (length preq) with (length (map Some preq)) by apply map_length.
  rewrite set_nth_mid.
  rewrite !skipn_app, !skipn_all, !Nat.sub_diag.
  rewrite !firstn_app. rewrite (firstn_all2 (n := length pre + 1)), (firstn_all2 (n := length (map Some preq) + 1)) by lia.
  replace (length pre + 1 - length pre)%nat with 1%nat by lia.
  replace (length (map Some preq) + 1 - length (map Some preq))%nat with 1%nat by lia.
  cbn [skipn firstn app].
  destruct (check_shapes (L :: post) (Some L :: preqs)); cbn [rbind]; [|reflexivity].
  destruct (check_shapes (pre ++ [L]) (map Some preq ++ [Some L])); cbn [rbind]; [|reflexivity].
  rewrite !zprod_prodZ. reflexivity.
Qed.

Lemma forallb_nonneg : forall l, forallb (Z.leb 0) l = true <-> Forall (fun o => 0 <= o) l.
Proof.
  intros l. rewrite forallb_forall, Forall_forall. split; intros H x Hx; specialize (H x Hx); apply Z.leb_le; exact H.
Qed.

Lemma reshape_iff : forall pre L post shape out na, 0 < L ->
  mpi_reshape (pre ++ L :: post) (length pre) shape = Ok (out, na) <->
  exists preq postq pre' post',
    shape = map Some preq ++ None :: map Some postq /\ na = length preq
    /\ out = pre' ++ L :: post'
    /\ Filled pre preq pre' /\ Filled post postq post'.
Proof.
  intros pre L post shape out na HL. split.
  - intros H.
    destruct (index_none shape) as [k|] eqn:EI; [|unfold mpi_reshape in H; rewrite EI in H; discriminate].
    destruct (index_none_spec _ _ EI) as (preq & rest & -> & _).
    rewrite mpi_reshape_form in H.
    destruct (none_dec rest) as [HN|HN].
    { exfalso. unfold check_shapes at 1 in H.
      destruct (scan_bad (Some L :: rest) 0 None 1) as (e & He); [right; exact HN|].
      rewrite He in H. discriminate. }
    destruct (all_some _ HN) as (postq & ->).
    destruct (check_shapes (L :: post) (Some L :: map Some postq)) as [np|] eqn:E1; [|discriminate].
    destruct (check_shapes (pre ++ [L]) (map Some preq ++ [Some L])) as [npr|] eqn:E2; [|discriminate].
    cbn [rbind] in H. cbv zeta in H.
    destruct (forallb (Z.leb 0) (firstn (length preq) npr ++ np)) eqn:E3; [|discriminate].
    destruct (prodZ (firstn (length preq) npr ++ np) =? prodZ (pre ++ L :: post)); [|discriminate].
    injection H as <- <-. apply forallb_nonneg in E3. apply Forall_app in E3 as (N1 & N2).
    assert (Hnp : exists post', np = L :: post').
    { change (Some L :: map Some postq) with (map Some (L :: postq)) in E1.
      apply check_shapes_spec in E1. destruct E1 as [(_ & _ & ->)|(_ & _ & _ & ->)]; [eexists; reflexivity|].
      cbn [map]. unfold fill at 1. destruct (Z.eqb_spec L (-1)); [lia|]. eexists. reflexivity. }
    destruct Hnp as (post' & ->). inversion N2; subst.
    exists preq, postq, (firstn (length preq) npr), post'.
    split; [reflexivity|]. split; [reflexivity|]. split; [reflexivity|]. split.
    + apply Filled_iff. split; [exact N1|].
      apply (check_comm L pre preq _ HL). eexists. split; [exact E2|reflexivity].
    + apply Filled_iff. split; [assumption|].
      apply (check_with L post postq _ HL). eexists. split; [exact E1|reflexivity].
  - intros (preq & postq & pre' & post' & -> & -> & -> & F1 & F2).
    rewrite mpi_reshape_form.
    pose proof F1 as G1. pose proof F2 as G2.
    apply Filled_iff in F1 as (N1 & F1). apply Filled_iff in F2 as (N2 & F2).
    apply (check_comm L pre preq _ HL) in F1. apply (check_with L post postq _ HL) in F2.
    destruct F1 as (o1 & C1 & E1). destruct F2 as (o2 & C2 & ->). rewrite C2, C1. cbn [rbind]. cbv zeta.
    rewrite E1.
    assert (HN : forallb (Z.leb 0) (pre' ++ L :: post') = true).
    { apply forallb_nonneg. apply Forall_app. split; [exact N1|]. constructor; [lia|exact N2]. }
    rewrite HN. destruct G1 as (_ & _ & Q1 & _). destruct G2 as (_ & _ & Q2 & _).
    rewrite !prodZ_app, !prodZ_cons, Q1, Q2, Z.eqb_refl. reflexivity.
Qed.

(** *** Order *)
Lemma flat_range : forall sh ix, InRange sh ix -> 0 <= flat sh ix < prodZ sh.
Proof.
  intros sh ix H. induction H as [|n i sh ix Hi H IH]; [cbn; lia|].
  cbn [flat]. rewrite prodZ_cons. nia.
Qed.
Lemma flat_split : forall pre post L ip d iq,
  length ip = length pre -> length iq = length post ->
  flat (pre ++ L :: post) (ip ++ d :: iq) = (flat pre ip * L + d) * prodZ post + flat post iq.
Proof.
  induction pre as [|x pre IH]; intros post L ip d iq H1 H2.
  - destruct ip; [|discriminate]. cbn [app flat]. lia.
  - destruct ip as [|i ip]; [discriminate|]. cbn [app flat]. cbn [length] in H1.
    rewrite IH by (lia || assumption). rewrite prodZ_app, prodZ_cons. lia.
Qed.

Lemma F2len : forall {A B} (R : A -> B -> Prop) l m, Forall2 R l m -> length l = length m.
Proof. intros A B R l m H. induction H; cbn; congruence. Qed.

Lemma InRange_app : forall a x b ia d ib, length ia = length a ->
  InRange (a ++ x :: b) (ia ++ d :: ib) -> InRange a ia /\ 0 <= d < x /\ InRange b ib.
Proof.
  induction a as [|y a IH]; intros x b ia d ib HL H.
  - destruct ia; [|discriminate]. inversion H; subst. split; [constructor|]. split; assumption.
  - destruct ia as [|i ia]; [discriminate|]. inversion H; subst. cbn [length] in HL.
    destruct (IH x b ia d ib) as (H1 & H2); [lia|assumption|]. split; [constructor; assumption|exact H2].
Qed.

Lemma reshape_order : forall pre L post pre' post' ip d iq ip' d' iq' N off,
  prodZ pre' = prodZ pre -> prodZ post' = prodZ post ->
  length ip = length pre -> length ip' = length pre' ->
  InRange (pre ++ L :: post) (ip ++ d :: iq) ->
  InRange (pre' ++ L :: post') (ip' ++ d' :: iq') ->
  flat (pre ++ L :: post) (ip ++ d :: iq) = flat (pre' ++ L :: post') (ip' ++ d' :: iq') ->
  d' = d /\
  flat (pre ++ N :: post) (ip ++ (off + d) :: iq) = flat (pre' ++ N :: post') (ip' ++ (off + d') :: iq').
Proof.
  intros pre L post pre' post' ip d iq ip' d' iq' N off P1 P2 L1 L2 R1 R2 E.
  apply InRange_app in R1 as (A1 & D1 & B1); [|exact L1].
  apply InRange_app in R2 as (A2 & D2 & B2); [|exact L2].
  pose proof (F2len _ _ _ B1) as LB1. pose proof (F2len _ _ _ B2) as LB2.
  rewrite !flat_split in E by (assumption || (symmetry; assumption)).
  rewrite !flat_split by (assumption || (symmetry; assumption)).
  apply flat_range in B1. apply flat_range in B2. apply flat_range in A1. apply flat_range in A2.
  rewrite P2 in *. 
  generalize dependent (flat post iq). generalize dependent (flat post' iq').
  generalize dependent (flat pre ip). generalize dependent (flat pre' ip').
  generalize dependent (prodZ post). intros Q a b Hb a' Ha f' B2 f B1 E.
  assert (X : f = f' /\ a' * L + d = b * L + d').
  { rewrite !(Z.mul_comm _ Q) in E.
    destruct (Z.div_mod_unique Q (a' * L + d) (b * L + d') f f') as (H1 & H2); try (left; assumption); try assumption.
    split; assumption. }
  destruct X as (-> & X).
  destruct (Z.div_mod_unique L a' b d d') as (H1 & H2); try (left; assumption).
  { rewrite !(Z.mul_comm L). exact X. }
  subst. split; reflexivity.
Qed.
