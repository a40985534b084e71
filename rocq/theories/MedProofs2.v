(** Proofs about the weighted median of the tree. *)
From Coq Require Import List ZArith Bool Sorted Permutation Lia.
From Verif Require Import PyBase MedModel MedSpec MedProofs.
Import ListNotations.
Open Scope Z_scope.


Lemma positive_nonneg : forall l, positive l -> nonneg l.
Proof. intros l H. eapply Forall_impl; [|exact H]. cbn; intros; lia. Qed.

(** *** Values around a pivot *)
Lemma sum_weights_bounds : forall f l, nonneg l -> 0 <= sum_weights f l <= weight_total l.
Proof.
  intros f l H. induction H as [|x l Hx H IH]; cbn [sum_weights]; [rewrite weight_total_nil; lia|].
  rewrite weight_total_cons. destruct (f (fst x)); lia.
Qed.
Lemma sum_weights_none : forall f l, Forall (fun x => f (fst x) = false) l -> sum_weights f l = 0.
Proof. intros f l H. induction H as [|x l Hx H IH]; cbn; [reflexivity|]. now rewrite Hx, IH. Qed.
Lemma sum_weights_all : forall f l, Forall (fun x => f (fst x) = true) l -> sum_weights f l = weight_total l.
Proof.
  intros f l H. induction H as [|x l Hx H IH]; cbn [sum_weights]; [reflexivity|].
  now rewrite Hx, IH, weight_total_cons.
Qed.

Section Pivot.
  Context (P : list datum) (d : datum) (S : list datum).
  Context (HP : Forall (fun x => fst x <= fst d) P) (HS : Forall (fun x => fst d <= fst x) S).
  Context (nP : nonneg P) (nS : nonneg S) (nd : 0 <= snd d).
  Let L := P ++ d :: S.

  Lemma pivot_total : weight_total L = weight_total P + snd d + weight_total S.
  Proof. unfold L. rewrite weight_total_app, weight_total_cons. lia. Qed.
  Lemma pivot_below : weight_below L (fst d) <= weight_total P.
  Proof.
    unfold L, weight_below. rewrite sum_weights_app. cbn [sum_weights].
    rewrite Z.ltb_irrefl.
    pose proof (sum_weights_bounds (fun u => u <? fst d) P nP).
    rewrite (sum_weights_none _ S); [lia|].
    eapply Forall_impl; [|exact HS]. cbn. intros a Ha. apply Z.ltb_ge. lia.
  Qed.
  Lemma pivot_upto : weight_total P + snd d <= weight_upto L (fst d).
  Proof.
    unfold L, weight_upto. rewrite sum_weights_app. cbn [sum_weights]. rewrite Z.leb_refl.
    rewrite (sum_weights_all _ P).
    2:{ eapply Forall_impl; [|exact HP]. cbn. intros a Ha. apply Z.leb_le. lia. }
    pose proof (sum_weights_bounds (fun u => u <=? fst d) S nS). lia.
  Qed.
  Lemma pivot_lower : forall u, u < fst d -> weight_upto L u <= weight_total P.
  Proof.
    intros u Hu. unfold L, weight_upto. rewrite sum_weights_app. cbn [sum_weights].
    destruct (Z.leb_spec (fst d) u); [lia|].
    pose proof (sum_weights_bounds (fun x => x <=? u) P nP).
    rewrite (sum_weights_none _ S); [lia|].
    eapply Forall_impl; [|exact HS]. cbn. intros a Ha. apply Z.leb_gt. lia.
  Qed.
  Lemma pivot_higher : forall u, fst d < u -> weight_total P + snd d <= weight_below L u.
  Proof.
    intros u Hu. unfold L, weight_below. rewrite sum_weights_app. cbn [sum_weights].
    destruct (Z.ltb_spec (fst d) u); [|lia].
    rewrite (sum_weights_all _ P).
    2:{ eapply Forall_impl; [|exact HP]. cbn. intros a Ha. apply Z.ltb_lt. lia. }
    pose proof (sum_weights_bounds (fun x => x <? u) S nS). lia.
  Qed.
End Pivot.

(** *** Paths *)
Fixpoint pre (p : path) : list datum :=
  match p with
  | [] => []
  | (true, N l d _ _ _ _ _) :: rest => pre rest ++ inorder l ++ [d]
  | _ :: rest => pre rest
  end.
Fixpoint post (p : path) : list datum :=
  match p with
  | [] => []
  | (false, N _ d r _ _ _ _) :: rest => d :: inorder r ++ post rest
  | _ :: rest => post rest
  end.
Definition pavl (t : tree) := avl t /\ positive (inorder t).
Definition path_ok (p : path) := Forall (fun st : bool * tree => snd st <> E /\ pavl (snd st)) p.

Lemma pavl_left : forall l d r a b c e, pavl (N l d r a b c e) -> pavl l.
Proof.
  intros l d r a b c e [A B]. split; [apply A|]. cbn [inorder] in B. now apply Forall_app in B.
Qed.
Lemma pavl_right : forall l d r a b c e, pavl (N l d r a b c e) -> pavl r.
Proof.
  intros l d r a b c e [A B]. split; [apply A|]. cbn [inorder] in B. apply Forall_app in B as [_ B].
  now inversion B.
Qed.

Definition data_of (t : tree) (d : datum) : Prop :=
  exists l r a b c e, t = N l d r a b c e.

Lemma avl_left_E : forall l d r a b c e, avl (N l d r a b c e) -> 0 < c -> l <> E.
Proof. intros l d r a b c e (_ & _ & _ & _ & -> & _) H ->. cbn [inorder] in H. rewrite weight_total_nil in H. lia. Qed.
Lemma avl_right_E : forall l d r a b c e, avl (N l d r a b c e) -> 0 < e -> r <> E.
Proof. intros l d r a b c e (_ & _ & _ & _ & _ & -> & _) H ->. cbn [inorder] in H. rewrite weight_total_nil in H. lia. Qed.

Lemma descend_spec : forall t p prev next T,
  t <> E -> pavl t -> path_ok p ->
  prev = weight_total (pre p) -> next = weight_total (post p) ->
  T = prev + weight_total (inorder t) + next ->
  2 * prev <= T -> 2 * next <= T ->
  exists l d r a b c e p' prev' next',
    descend t p prev next T = Some (N l d r a b c e, p', prev', next') /\
    pavl (N l d r a b c e) /\ path_ok p' /\
    prev' = weight_total (pre p') /\ next' = weight_total (post p') /\
    pre p' ++ (inorder l ++ d :: inorder r) ++ post p' = pre p ++ inorder t ++ post p /\
    2 * (weight_total (inorder l) + prev') <= T /\ 2 * (weight_total (inorder r) + next') <= T.
Proof.
  induction t as [|l IHl d r IHr a b c e]; intros p prev next T Hne Ha Hp Hprev Hnext HT H1 H2; [congruence|].
  pose proof Ha as Ha'. pose proof (pavl_left _ _ _ _ _ _ _ Ha) as Al.
  pose proof (pavl_right _ _ _ _ _ _ _ Ha) as Ar. destruct Ha as [Ha _].
  pose proof Ha as Ha2. cbn [avl] in Ha. destruct Ha as (_ & _ & _ & _ & Hc & He & _).
  cbn [descend].
  cbn [inorder] in HT. rewrite weight_total_app, weight_total_cons in HT.
  assert (Hpo : forall s, path_ok ((s, N l d r a b c e) :: p))
    by (intro s; constructor; [split; [discriminate|exact Ha']|exact Hp]).
  destruct (Z.gtb_spec (2 * (c + prev)) T) as [G1|G1].
  - assert (Hl : l <> E) by (apply (avl_left_E _ _ _ _ _ _ _ Ha2); lia).
    destruct (IHl ((false, N l d r a b c e) :: p) prev (next + (e + snd d)) T Hl Al (Hpo false))
      as (l' & d' & r' & a' & b' & c' & e' & p' & prev' & next' & R1 & R2 & R3 & R4 & R5 & R6 & R7).
    + exact Hprev.
    + cbn [post]. rewrite weight_total_cons, weight_total_app. subst. lia.
    + subst. lia.
    + lia.
    + subst. lia.
    + exists l', d', r', a', b', c', e', p', prev', next'.
      repeat (split; [assumption|]). split; [|exact R7].
      rewrite R6. cbn [pre post inorder]. rewrite <- !app_assoc. cbn. reflexivity.
  - destruct (Z.gtb_spec (2 * (e + next)) T) as [G2|G2].
    + assert (Hr : r <> E) by (apply (avl_right_E _ _ _ _ _ _ _ Ha2); lia).
      destruct (IHr ((true, N l d r a b c e) :: p) (prev + (c + snd d)) next T Hr Ar (Hpo true))
        as (l' & d' & r' & a' & b' & c' & e' & p' & prev' & next' & R1 & R2 & R3 & R4 & R5 & R6 & R7).
      * cbn [pre]. rewrite !weight_total_app, weight_total_cons, weight_total_nil. subst. lia.
      * exact Hnext.
      * subst. lia.
      * subst. lia.
      * lia.
      * exists l', d', r', a', b', c', e', p', prev', next'.
        repeat (split; [assumption|]). split; [|exact R7].
        rewrite R6. cbn [pre post inorder]. rewrite <- !app_assoc. cbn. reflexivity.
    + exists l, d, r, a, b, c, e, p, prev, next.
      split; [reflexivity|]. repeat (split; [assumption|]).
      split; [reflexivity|]. subst. lia.
Qed.

Lemma find_max_spec : forall t p, t <> E -> pavl t -> path_ok p ->
  exists d X t' p', find_max t p = (t', p') /\ data_of t' d /\ pavl t' /\ path_ok p' /\
    inorder t = X ++ [d].
Proof.
  induction t as [|l IHl d r IHr a b c e]; intros p Hne Ha Hp; [congruence|].
  destruct r as [|rl rd rr a1 b1 c1 e1] eqn:Er.
  - exists d, (inorder l), (N l d E a b c e), p. cbn [find_max inorder]. repeat (split; [reflexivity || assumption || idtac|]); auto.
    exists l, E, a, b, c, e. reflexivity.
  - rewrite <- Er in *.
    assert (Ar : pavl r) by (eapply pavl_right; exact Ha).
    destruct (IHr ((true, N l d r a b c e) :: p)) as (d' & X & t' & p' & R1 & R2 & R3 & R4 & R5).
    + congruence.
    + exact Ar.
    + constructor; [split; [discriminate|exact Ha]|exact Hp].
    + exists d', (inorder l ++ d :: X), t', p'. split; [|repeat (split; [assumption|])].
      * rewrite <- R1. rewrite Er. reflexivity.
      * cbn [inorder]. rewrite R5, <- app_assoc. reflexivity.
Qed.
Lemma find_min_spec : forall t p, t <> E -> pavl t -> path_ok p ->
  exists d X t' p', find_min t p = (t', p') /\ data_of t' d /\ pavl t' /\ path_ok p' /\
    inorder t = d :: X.
Proof.
  induction t as [|l IHl d r IHr a b c e]; intros p Hne Ha Hp; [congruence|].
  destruct l as [|rl rd rr a1 b1 c1 e1] eqn:Er.
  - exists d, (inorder r), (N E d r a b c e), p. cbn. repeat split; auto; try apply Ha.
    exists E, r, a, b, c, e. reflexivity.
  - rewrite <- Er in *.
    assert (Ar : pavl l) by (eapply pavl_left; exact Ha).
    destruct (IHl ((false, N l d r a b c e) :: p)) as (d' & X & t' & p' & R1 & R2 & R3 & R4 & R5).
    + congruence.
    + exact Ar.
    + constructor; [split; [discriminate|exact Ha]|exact Hp].
    + exists d', (X ++ d :: inorder r), t', p'. split; [|repeat (split; [assumption|])].
      * rewrite <- R1. rewrite Er. reflexivity.
      * cbn [inorder]. rewrite R5. reflexivity.
Qed.

Lemma up_pred_spec : forall p, path_ok p ->
  match up_while false p with
  | None => pre p = []
  | Some (t', p') => exists d X, data_of t' d /\ pavl t' /\ path_ok p' /\ pre p = X ++ [d]
  end.
Proof.
  induction p as [|[s t] p IH]; intro H; [reflexivity|].
  inversion H as [|? ? [H1 H2] H3]; subst. cbn in H1, H2. cbn [up_while].
  destruct t as [|l d r a b c e]; [congruence|].
  destruct s; cbn [Bool.eqb].
  - exists d, (pre p ++ inorder l). split; [exists l, r, a, b, c, e; reflexivity|].
    repeat (split; [assumption|]). cbn [pre]. now rewrite app_assoc.
  - exact (IH H3).
Qed.
Lemma up_succ_spec : forall p, path_ok p ->
  match up_while true p with
  | None => post p = []
  | Some (t', p') => exists d X, data_of t' d /\ pavl t' /\ path_ok p' /\ post p = d :: X
  end.
Proof.
  induction p as [|[s t] p IH]; intro H; [reflexivity|].
  inversion H as [|? ? [H1 H2] H3]; subst. cbn in H1, H2. cbn [up_while].
  destruct t as [|l d r a b c e]; [congruence|].
  destruct s; cbn [Bool.eqb].
  - exact (IH H3).
  - exists d, (inorder r ++ post p). split; [exists l, r, a, b, c, e; reflexivity|].
    repeat (split; [assumption|]). reflexivity.
Qed.

Lemma predecessor_spec : forall l d r a b c e p, pavl (N l d r a b c e) -> path_ok p ->
  match predecessor (N l d r a b c e) p with
  | None => pre p ++ inorder l = []
  | Some (t', p') => exists d' X, data_of t' d' /\ pavl t' /\ pre p ++ inorder l = X ++ [d']
  end.
Proof.
  intros l d r a b c e p Ha Hp. cbn [predecessor].
  destruct l as [|rl rd rr a1 b1 c1 e1] eqn:Er.
  - pose proof (up_pred_spec p Hp) as H. destruct (up_while false p) as [[t' p']|].
    + destruct H as (d' & X & A & B & C & D). exists d', X. cbn. rewrite app_nil_r. auto.
    + cbn. now rewrite app_nil_r.
  - rewrite <- Er in *.
    destruct (find_max_spec l ((false, N l d r a b c e) :: p)) as (d' & X & t' & p' & R1 & R2 & R3 & R4 & R5).
    + congruence.
    + eapply pavl_left; exact Ha.
    + constructor; [split; [discriminate|exact Ha]|exact Hp].
    + rewrite R1. exists d', (pre p ++ X). rewrite R5, app_assoc. auto.
Qed.
Lemma successor_spec : forall l d r a b c e p, pavl (N l d r a b c e) -> path_ok p ->
  match successor (N l d r a b c e) p with
  | None => inorder r ++ post p = []
  | Some (t', p') => exists d' X, data_of t' d' /\ pavl t' /\ inorder r ++ post p = d' :: X
  end.
Proof.
  intros l d r a b c e p Ha Hp. cbn [successor].
  destruct r as [|rl rd rr a1 b1 c1 e1] eqn:Er.
  - pose proof (up_succ_spec p Hp) as H. destruct (up_while true p) as [[t' p']|].
    + destruct H as (d' & X & A & B & C & D). exists d', X. cbn. auto.
    + cbn. exact H.
  - rewrite <- Er in *.
    destruct (find_min_spec r ((true, N l d r a b c e) :: p)) as (d' & X & t' & p' & R1 & R2 & R3 & R4 & R5).
    + congruence.
    + eapply pavl_right; exact Ha.
    + constructor; [split; [discriminate|exact Ha]|exact Hp].
    + rewrite R1. exists d', (X ++ post p). rewrite R5. auto.
Qed.

(** *** The median *)
Lemma ordered_split : forall P d S, ordered (P ++ d :: S) ->
  Forall (fun x => fst x <= fst d) P /\ Forall (fun x => fst d <= fst x) S.
Proof.
  intros P d S H. apply ordered_app in H as (_ & _ & H1 & H2). split.
  - eapply Forall_impl; [|exact H1]. unfold datum_le. intros; lia.
  - eapply Forall_impl; [|exact H2]. unfold datum_le. intros; lia.
Qed.

(** Where the descent ends: the element in the middle of the ordered list. *)
Lemma median_node : forall t, t <> E -> avl t -> positive (inorder t) ->
  exists l d r a b c e p prev next P S,
    descend t [] 0 0 (total_weight t) = Some (N l d r a b c e, p, prev, next) /\
    pavl (N l d r a b c e) /\ path_ok p /\
    P = pre p ++ inorder l /\ S = inorder r ++ post p /\ inorder t = P ++ d :: S /\
    c + prev = weight_total P /\ e + next = weight_total S /\ 0 < snd d /\
    2 * weight_total P <= total_weight t /\ 2 * weight_total S <= total_weight t.
Proof.
  intros t Hne Ha Hpos.
  assert (HW : 0 <= weight_total (inorder t))
    by (apply (sum_weights_bounds (fun _ => true)), positive_nonneg, Hpos).
  rewrite avl_weight by assumption.
  destruct (descend_spec t [] 0 0 (weight_total (inorder t)) Hne (conj Ha Hpos))
    as (l & d & r & a & b & c & e & p & prev & next & R1 & R2 & R3 & R4 & R5 & R6 & R7);
    try reflexivity; try lia; [constructor|].
  pose proof (proj1 R2) as R2'. cbn [avl] in R2'. destruct R2' as (_ & _ & _ & _ & Hc & He & _).
  exists l, d, r, a, b, c, e, p, prev, next, (pre p ++ inorder l), (inorder r ++ post p).
  assert (HL : inorder t = (pre p ++ inorder l) ++ d :: inorder r ++ post p).
  { cbn [pre post] in R6. rewrite app_nil_r in R6. cbn in R6. rewrite <- R6.
    rewrite <- !app_assoc. reflexivity. }
  split; [exact R1|]. split; [exact R2|]. split; [exact R3|].
  split; [reflexivity|]. split; [reflexivity|]. split; [exact HL|].
  rewrite !weight_total_app. repeat split; try lia.
  rewrite HL in Hpos. apply Forall_app in Hpos as [_ Hpos]. now inversion Hpos.
Qed.

Lemma right_weight_nonneg : forall t, avl t -> positive (inorder t) -> 0 <= right_weight t /\ 0 <= left_weight t.
Proof.
  destruct t as [|l d r a b c e]; cbn [right_weight left_weight]; [lia|].
  intros (_ & _ & _ & _ & -> & -> & _) H. cbn [inorder] in H. apply Forall_app in H as [H1 H2].
  inversion H2; subst. split; apply (sum_weights_bounds (fun _ => true)), positive_nonneg; assumption.
Qed.

Lemma data_of_value : forall t d, data_of t d -> node_value t = fst d /\ node_weight t = snd d.
Proof. intros t d (l & r & a & b & c & e & ->). split; reflexivity. Qed.

Lemma right_of_pavl : forall t, pavl t -> 0 <= right_weight t /\ 0 <= left_weight t.
Proof. intros t [H1 H2]. now apply right_weight_nonneg. Qed.

Lemma split_down_spec : forall fuel l d r a b c e p next T P S acc,
  pavl (N l d r a b c e) -> path_ok p ->
  P = pre p ++ inorder l -> e + next = weight_total S ->
  T = weight_total P + snd d + weight_total S -> 0 < T -> positive P -> 0 < snd d ->
  2 * weight_total P <= T -> 
  (0 < fuel)%nat ->
  (2 * (weight_total S + snd d) <= T /\
   exists P' d', P = P' ++ [d'] /\
     split_down fuel (N l d r a b c e) p next T acc = (fst acc + fst d', snd acc + 1)) \/
  (T < 2 * (weight_total S + snd d) /\ split_down fuel (N l d r a b c e) p next T acc = acc).
Proof.
  intros fuel l d r a b c e p next T P S acc Ha Hp HP He HT HT0 HposP Hd H1 Hf.
  destruct fuel as [|fuel]; [lia|]. cbn [split_down right_weight node_weight].
  replace (2 * (e + next + snd d)) with (2 * (weight_total S + snd d)) by lia.
  destruct (Z.leb_spec (2 * (weight_total S + snd d)) T) as [HA|HA]; [left|right; split; [lia|reflexivity]].
  split; [exact HA|].
  pose proof (predecessor_spec l d r a b c e p Ha Hp) as Hpred.
  destruct (predecessor (N l d r a b c e) p) as [[t' p']|].
  - destruct Hpred as (d' & X & D1 & D2 & D3). exists X, d'. split; [congruence|].
    destruct (data_of_value _ _ D1) as [V1 V2]. rewrite V1.
    destruct fuel as [|fuel]; [reflexivity|]. cbn [split_down].
    rewrite V2. destruct (right_of_pavl t' D2) as [Hrw _].
    assert (0 < snd d').
    { rewrite HP, D3 in HposP. apply Forall_app in HposP as [_ HposP]. now inversion HposP. }
    destruct (Z.leb_spec (2 * (right_weight t' + (next + (snd d + e)) + snd d')) T); [|reflexivity].
    exfalso. lia.
  - exfalso. rewrite <- HP in Hpred. rewrite Hpred, weight_total_nil in HT. lia.
Qed.

Lemma split_up_spec : forall fuel l d r a b c e p prev T P S acc,
  pavl (N l d r a b c e) -> path_ok p ->
  S = inorder r ++ post p -> c + prev = weight_total P ->
  T = weight_total P + snd d + weight_total S -> 0 < T -> positive S -> 0 < snd d ->
  2 * weight_total S <= T ->
  (0 < fuel)%nat ->
  (2 * (weight_total P + snd d) <= T /\
   exists d' S', S = d' :: S' /\
     split_up fuel (N l d r a b c e) p prev T acc = (fst acc + fst d', snd acc + 1)) \/
  (T < 2 * (weight_total P + snd d) /\ split_up fuel (N l d r a b c e) p prev T acc = acc).
Proof.
  intros fuel l d r a b c e p prev T P S acc Ha Hp HS Hc HT HT0 HposS Hd H1 Hf.
  destruct fuel as [|fuel]; [lia|]. cbn [split_up left_weight node_weight].
  replace (2 * (c + prev + snd d)) with (2 * (weight_total P + snd d)) by lia.
  destruct (Z.leb_spec (2 * (weight_total P + snd d)) T) as [HA|HA]; [left|right; split; [lia|reflexivity]].
  split; [exact HA|].
  pose proof (successor_spec l d r a b c e p Ha Hp) as Hsucc.
  destruct (successor (N l d r a b c e) p) as [[t' p']|].
  - destruct Hsucc as (d' & X & D1 & D2 & D3). exists d', X. split; [congruence|].
    destruct (data_of_value _ _ D1) as [V1 V2]. rewrite V1.
    destruct fuel as [|fuel]; [reflexivity|]. cbn [split_up].
    rewrite V2. destruct (right_of_pavl t' D2) as [_ Hlw].
    assert (0 < snd d').
    { rewrite HS, D3 in HposS. now inversion HposS. }
    destruct (Z.leb_spec (2 * (left_weight t' + (prev + (snd d + c)) + snd d')) T); [|reflexivity].
    exfalso. lia.
  - exfalso. rewrite <- HS in Hsucc. rewrite Hsucc, weight_total_nil in HT. lia.
Qed.

(** Uniqueness facts at the median position. *)
Section Middle.
  Context (P : list datum) (d : datum) (S : list datum).
  Let L := P ++ d :: S.
  Context (Ho : ordered L) (Hpos : positive L).
  Let T := weight_total L.
  Context (H1 : 2 * weight_total P <= T) (H2 : 2 * weight_total S <= T).

  Lemma middle_facts :
    Forall (fun x => fst x <= fst d) P /\ Forall (fun x => fst d <= fst x) S /\
    nonneg P /\ nonneg S /\ 0 < snd d.
  Proof.
    destruct (ordered_split _ _ _ Ho) as [A B].
    apply Forall_app in Hpos as [C D]. inversion D; subst.
    repeat split; auto; now apply positive_nonneg.
  Qed.
  Lemma middle_value : quantile_value L T 2 (fst d).
  Proof.
    destruct middle_facts as (A & B & C & D & E0). assert (E1 : 0 <= snd d) by lia.
    split; [exists (snd d); split; [unfold L; rewrite in_app_iff; right; left; destruct d; reflexivity|lia]|].
    pose proof (pivot_below P d S B C). pose proof (pivot_upto P d S A D).
    pose proof (pivot_total P d S). fold L in H, H0, H3. subst T. lia.
  Qed.
  Lemma middle_lower : T < 2 * (weight_total S + snd d) -> quantile_lower L T 2 (fst d).
  Proof.
    intro G. destruct middle_facts as (A & B & C & D & E0). assert (E1 : 0 <= snd d) by lia.
    split; [apply middle_value|]. intros u (_ & _ & Hu).
    destruct (Z_lt_le_dec u (fst d)) as [Hlt|]; [|lia].
    pose proof (pivot_lower P d S B C u Hlt). pose proof (pivot_total P d S).
    fold L in H, H0. subst T. lia.
  Qed.
  Lemma middle_higher : T < 2 * (weight_total P + snd d) -> quantile_higher L T 2 (fst d).
  Proof.
    intro G. destruct middle_facts as (A & B & C & D & E0). assert (E1 : 0 <= snd d) by lia.
    split; [apply middle_value|]. intros u (_ & Hu & _).
    destruct (Z_lt_le_dec (fst d) u) as [Hlt|]; [|lia].
    pose proof (pivot_higher P d S A D u Hlt). pose proof (pivot_total P d S).
    fold L in H, H0. subst T. lia.
  Qed.
End Middle.

Lemma tree_nodes_pos : forall t, t <> E -> (0 < tree_nodes t)%nat.
Proof. destruct t; [congruence|cbn; lia]. Qed.

Lemma weight_total_pos : forall l, positive l -> l <> [] -> 0 < weight_total l.
Proof.
  intros [|x l] H Hne; [congruence|]. inversion H; subst. rewrite weight_total_cons.
  pose proof (sum_weights_bounds (fun _ => true) l (positive_nonneg _ H3)). unfold weight_total. lia.
Qed.

Theorem median_split : forall t, t <> E -> avl t -> ordered (inorder t) -> positive (inorder t) ->
  exists ans, weighted_median t MSplit = Ok ans /\ median_answer (inorder t) MSplit ans.
Proof.
  intros t Hne Ha Ho Hpos.
  destruct (median_node t Hne Ha Hpos)
    as (l & d & r & a & b & c & e & p & prev & next & P & S & R1 & R2 & R3 & R4 & R5 & R6 & R7 & R8 & R9 & R10 & R11).
  assert (HT0 : 0 < total_weight t).
  { rewrite avl_weight by assumption. apply weight_total_pos; [assumption|]. rewrite R6. destruct P; discriminate. }
  assert (HT : total_weight t = weight_total P + snd d + weight_total S).
  { rewrite avl_weight by assumption. rewrite R6. rewrite weight_total_app, weight_total_cons. lia. }
  assert (HTL : total_weight t = weight_total (P ++ d :: S)) by (rewrite <- R6; now apply avl_weight).
  unfold weighted_median. destruct t as [|tl td tr ta tb tc te] eqn:Et; [congruence|].
  rewrite <- Et in *. rewrite R1. cbn [node_value].
  rewrite R6 in Ho, Hpos.
  pose proof Hpos as Hpos'. apply Forall_app in Hpos' as [HpP HpS]. inversion HpS as [|? ? _ HpS']; subst x l0.
  set (acc := split_down _ _ _ _ _ _). 
  eexists. split; [reflexivity|]. unfold median_answer. rewrite R6, <- HTL.
  destruct (split_down_spec (tree_nodes t) l d r a b c e p next (total_weight t) P S (fst d, 1)
              R2 R3 R4 R8 HT HT0 HpP R9 R10 (tree_nodes_pos t Hne)) as [(G & P' & d' & EP & EA)|(G & EA)];
  destruct (split_up_spec (tree_nodes t) l d r a b c e p prev (total_weight t) P S acc
              R2 R3 R5 R7 HT HT0 HpS' R9 R11 (tree_nodes_pos t Hne)) as [(G' & d2 & S' & ES & EB)|(G' & EB)];
  fold acc in EA.
  - exfalso. lia.
  - rewrite EB, EA. cbn [fst snd quantile_answer]. split; [lia|].
    exists (fst d'), (fst d). split; [|split].
    + assert (EL : P ++ d :: S = P' ++ d' :: (d :: S)) by (rewrite EP, <- app_assoc; reflexivity).
      assert (HWP : weight_total P = weight_total P' + snd d')
        by (rewrite EP, weight_total_app, weight_total_cons, weight_total_nil; lia).
      clear EA EB R1. rewrite EL in *. rewrite HTL.
      rewrite EP in HpP. apply Forall_app in HpP as [HpP1 HpP2]. assert (0 < snd d') by exact (Forall_inv HpP2).
      apply middle_lower; auto; rewrite <- ?HTL, ?weight_total_cons; lia.
    + rewrite HTL. apply middle_higher; auto; rewrite <- ?HTL; lia.
    + lia.
  - rewrite EB, EA. cbn [fst snd quantile_answer]. split; [lia|].
    exists (fst d), (fst d2). split; [|split].
    + rewrite HTL. apply middle_lower; auto; rewrite <- ?HTL; lia.
    + assert (EL : P ++ d :: S = (P ++ [d]) ++ d2 :: S') by (rewrite ES, <- app_assoc; reflexivity).
      assert (HWS : weight_total S = snd d2 + weight_total S') by (rewrite ES, weight_total_cons; lia).
      clear EA EB R1. rewrite EL in *. rewrite HTL.
      rewrite ES in HpS'. assert (0 < snd d2) by exact (Forall_inv HpS').
      apply middle_higher; auto; rewrite <- ?HTL, ?weight_total_app, ?weight_total_cons, ?weight_total_nil; lia.
    + lia.
  - rewrite EB, EA. cbn [fst snd quantile_answer]. split; [lia|].
    exists (fst d), (fst d). split; [|split].
    + rewrite HTL. apply middle_lower; auto; rewrite <- ?HTL; lia.
    + rewrite HTL. apply middle_higher; auto; rewrite <- ?HTL; lia.
    + lia.
Qed.

(** Without a tie the two other methods agree. *)
Theorem median_no_tie : forall t m, t <> E -> avl t -> ordered (inorder t) -> positive (inorder t) ->
  (forall P S, inorder t = P ++ S -> 2 * weight_total P <> weight_total (inorder t)) ->
  exists ans, weighted_median t m = Ok ans /\ median_answer (inorder t) m ans.
Proof.
  intros t m Hne Ha Ho Hpos Htie.
  destruct m; [now apply median_split| |];
  (destruct (median_node t Hne Ha Hpos)
    as (l & d & r & a & b & c & e & p & prev & next & P & S & R1 & R2 & R3 & R4 & R5 & R6 & R7 & R8 & R9 & R10 & R11);
   assert (HT : total_weight t = weight_total P + snd d + weight_total S)
     by (rewrite avl_weight by assumption; rewrite R6, weight_total_app, weight_total_cons; lia);
   assert (HTL : total_weight t = weight_total (P ++ d :: S)) by (rewrite <- R6; now apply avl_weight);
   pose proof (Htie P (d :: S) R6) as T1;
   assert (T2 : 2 * weight_total (P ++ [d]) <> weight_total (inorder t))
     by (apply (Htie (P ++ [d]) S); rewrite <- app_assoc; exact R6);
   rewrite weight_total_app, weight_total_cons, weight_total_nil in T2;
   rewrite <- avl_weight in T1, T2 by assumption;
   unfold weighted_median; destruct t as [|tl td tr ta tb tc te] eqn:Et; [congruence|];
   rewrite <- Et in *; rewrite R1; rewrite R6 in Ho, Hpos;
   eexists; (split; [reflexivity|]); unfold median_answer; rewrite R6, <- HTL).
  - cbn [go_lower].
    destruct (Z.leb_spec (2 * (e + next + snd d)) (total_weight t)); [lia|].
    rewrite andb_false_r. cbn [quantile_answer]. split; [lia|].
    exists (fst d). split; [|lia]. rewrite HTL. apply middle_lower; auto; rewrite <- ?HTL; lia.
  - cbn [go_higher].
    destruct (Z.leb_spec (2 * (c + prev + snd d)) (total_weight t)); [lia|].
    rewrite andb_false_r. cbn [quantile_answer]. split; [lia|].
    exists (fst d). split; [|lia]. rewrite HTL. apply middle_higher; auto; rewrite <- ?HTL; lia.
Qed.
