(** Lemmas about broadcasting and axes counted from the right. *)
From Coq Require Import List Arith ZArith Bool Lia.
From Verif Require Import PyBase PartSpec PartModel PartProofs SliceModel RedModel RedSpec RedProofs AxModel AxSpec AxProofs AxProofs2 DuModel DuSpec.
Import ListNotations.
Open Scope nat_scope.

Lemma right_ext : forall A (a b : list A), (forall j, right j a = right j b) -> a = b.
Proof.
  intros A a b H. rewrite <- (rev_involutive a), <- (rev_involutive b). f_equal.
  apply nth_error_ext. exact H.
Qed.
Lemma right_lt : forall A (l : list A) j, j < length l -> exists x, right j l = Some x.
Proof.
  intros A l j H. unfold right. destruct (nth_error (rev l) j) as [x|] eqn:E; [eauto|].
  apply nth_error_None in E. rewrite rev_length in E. lia.
Qed.
Lemma right_some : forall A (l : list A) j x, right j l = Some x -> j < length l.
Proof. intros A l j x H. unfold right in H. rewrite <- rev_length. apply nth_error_Some. congruence. Qed.
Lemma right_nth : forall A (l : list A) k j, k + S j = length l -> right j l = nth_error l k.
Proof.
  intros A l k j H. unfold right. rewrite nth_error_rev' by lia. f_equal. lia.
Qed.
Lemma right_set_nth : forall (l : list nat) k j x i, k + S j = length l ->
  right i (set_nth k x l) = if i =? j then Some x else right i l.
Proof.
  intros l k j x i H. destruct (Nat.lt_ge_cases i (length l)) as [L|L].
  - rewrite (right_nth _ _ (length l - S i)) by (rewrite length_set_nth; lia).
    rewrite nth_error_set_nth. rewrite (right_nth _ l (length l - S i)) by lia.
    destruct (nth_error l (length l - S i)) eqn:E; cbn [option_map].
    + destruct (Nat.eqb_spec (length l - S i) k), (Nat.eqb_spec i j); try lia; auto.
    + apply nth_error_None in E. lia.
  - rewrite !right_none by (rewrite ?length_set_nth; lia).
    destruct (Nat.eqb_spec i j); [lia|reflexivity].
Qed.
Lemma right_rev : forall A (l : list A) j, right j (rev l) = nth_error l j.
Proof. intros. unfold right. now rewrite rev_involutive. Qed.

(** ** [bc] *)
Lemma bc_nth : forall s t r, bc s t = Some r -> length r = Nat.max (length s) (length t) /\
  forall j, nth_error r j = match nth_error s j, nth_error t j with
    | Some x, Some y => bdim x y | Some x, None => Some x | None, o => o end.
Proof.
  induction s as [|x s IH]; intros t r H.
  - cbn in H. injection H as <-. split; [reflexivity|]. intros j. destruct j; reflexivity.
  - destruct t as [|y t]; cbn [bc] in H.
    + injection H as <-. split; [cbn; lia|]. intros j. destruct j; cbn; [reflexivity|].
      destruct (nth_error s j); reflexivity.
    + destruct (bdim x y) as [d|] eqn:D; [|discriminate]. destruct (bc s t) as [l|] eqn:E; [|discriminate].
      injection H as <-. destruct (IH _ _ E) as [HL HN]. split; [cbn [length]; lia|].
      intros [|j]; cbn [nth_error]; [congruence|apply HN].
Qed.
Lemma bdim_cases : forall x y d, bdim x y = Some d -> (x = 1 \/ x = d) /\ (y = 1 \/ y = d) /\ (d = x \/ d = y).
Proof.
  intros x y d. unfold bdim. destruct (Nat.eqb_spec x y), (Nat.eqb_spec x 1), (Nat.eqb_spec y 1);
    intros H; inversion H; subst; auto.
Qed.
Definition Fits (s out : list nat) : Prop := length s <= length out /\
  forall j n d, nth_error out j = Some n -> nth_error s j = Some d -> d = 1 \/ d = n.
Lemma bc_fits : forall s t out, Fits s out -> Fits t out -> exists r, bc s t = Some r /\ Fits r out.
Proof.
  induction s as [|x s IH]; intros t out HS HT.
  - exists t. split; auto.
  - destruct t as [|y t]; [exists (x :: s); split; auto|].
    destruct out as [|n out]; [destruct HS as [L _]; cbn in L; lia|].
    destruct (IH t out) as (r & E & F).
    + destruct HS as [L HS]. split; [cbn in L; lia|]. intros j m d. exact (HS (S j) m d).
    + destruct HT as [L HT]. split; [cbn in L; lia|]. intros j m d. exact (HT (S j) m d).
    + destruct HS as [_ HS], HT as [_ HT]. specialize (HS 0 n x eq_refl eq_refl). specialize (HT 0 n y eq_refl eq_refl).
      cbn [bc]. rewrite E. unfold bdim.
      assert (G : forall d, (d = 1 \/ d = n) -> Fits (d :: r) (n :: out)).
      { intros d Hd. destruct F as [FL F]. split; [cbn; lia|].
        intros [|j] m e; cbn [nth_error]; intros H1 H2; [injection H1 as <-; injection H2 as <-; exact Hd|eauto]. }
      destruct (Nat.eqb_spec x y); [eexists; split; [reflexivity|apply G; auto]|].
      destruct (Nat.eqb_spec x 1); [eexists; split; [reflexivity|apply G; auto]|].
      destruct (Nat.eqb_spec y 1); [eexists; split; [reflexivity|apply G; auto]|]. lia.
Qed.

Definition bfold (shapes : list (list nat)) : option (list nat) :=
  fold_right (fun s acc => match acc with Some t => bc (rev s) t | None => None end) (Some []) shapes.
Lemma bfold_fits : forall shapes out, (forall s, In s shapes -> Fits (rev s) out) ->
  exists t, bfold shapes = Some t /\ Fits t out.
Proof.
  induction shapes as [|s shapes IH]; intros out H.
  - exists []. split; [reflexivity|]. split; [cbn; lia|]. intros [|j] ? ? _ Hd; discriminate.
  - destruct (IH out) as (t & E & F); [intros; apply H; now right|].
    change (bfold (s :: shapes)) with (match bfold shapes with Some t => bc (rev s) t | None => None end).
    rewrite E. apply bc_fits; [apply H; now left|exact F].
Qed.
Lemma bfold_sound : forall shapes t, bfold shapes = Some t -> Broadcast shapes (rev t).
Proof.
  induction shapes as [|s shapes IH]; intros t H.
  - cbn in H. injection H as <-. split; [contradiction|]. split; [left; reflexivity|].
    intros [|j] n Hn; discriminate.
  - change (bfold (s :: shapes)) with (match bfold shapes with Some t => bc (rev s) t | None => None end) in H.
    destruct (bfold shapes) as [t0|]; [|discriminate]. destruct (IH _ eq_refl) as (B1 & B2 & B3).
    destruct (bc_nth _ _ _ H) as [HL HN]. rewrite rev_length in HL, B1, B2. unfold Broadcast. rewrite rev_length. split; [|split].
    + intros s' [<-|Hs]; [rewrite HL; lia|]. specialize (B1 _ Hs). lia.
    + destruct (Nat.le_gt_cases (length t0) (length s)) as [L|L].
      * right. exists s. split; [now left|lia].
      * destruct B2 as [B2|(s' & Hs & B2)]; [lia|]. right. exists s'. split; [now right|]. lia.
    + intros j n. rewrite right_rev, HN. specialize (B3 j). rewrite right_rev in B3.
      change (nth_error (rev s) j) with (right j s).
      destruct (right j s) as [x|] eqn:Ex, (nth_error t0 j) as [y|] eqn:Ey; intros Hn; [| | |discriminate].
      * destruct (B3 y eq_refl) as [C1 C2]. apply bdim_cases in Hn. destruct Hn as (D1 & D2 & D3). split.
        -- intros s' d [<-|Hs] Hd; [rewrite Ex in Hd; injection Hd as <-; exact D1|].
           destruct (C1 _ _ Hs Hd); subst; auto.
        -- destruct D3 as [->| ->].
           ++ right. exists s. split; [now left|exact Ex].
           ++ destruct C2 as [->|(s' & Hs & C2)]; auto. right. exists s'. split; [now right|exact C2].
      * injection Hn as <-. split.
        -- intros s' d [<-|Hs] Hd; [rewrite Ex in Hd; injection Hd as <-; auto|].
           apply right_some in Hd. specialize (B1 _ Hs). apply nth_error_None in Ey. lia.
        -- right. exists s. split; [now left|exact Ex].
      * destruct (B3 n) as [C1 C2]; [congruence|]. split.
        -- intros s' d [<-|Hs] Hd; [congruence|eauto].
        -- destruct C2 as [->|(s' & Hs & C2)]; auto. right. exists s'. split; [now right|exact C2].
Qed.
Lemma broadcast_fits : forall shapes out s, Broadcast shapes out -> In s shapes -> Fits (rev s) (rev out).
Proof.
  intros shapes out s (B1 & _ & B3) Hs. split; [rewrite !rev_length; auto|].
  intros j n d Hn Hd. exact (proj1 (B3 j n Hn) s d Hs Hd).
Qed.
Lemma broadcast_unique : forall shapes a b, Broadcast shapes a -> Broadcast shapes b -> a = b.
Proof.
  assert (L : forall shapes a b, Broadcast shapes a -> Broadcast shapes b -> length a <= length b).
  { intros shapes a b (_ & A2 & _) (B1 & _). destruct A2 as [->|(s & Hs & <-)]; [lia|auto]. }
  intros shapes a b HA HB. assert (E : length a = length b) by (apply Nat.le_antisymm; eauto).
  apply right_ext. intros j. destruct (Nat.lt_ge_cases j (length a)) as [Hj|Hj].
  - destruct (right_lt _ a j Hj) as [x Hx], (right_lt _ b j) as [y Hy]; [lia|]. rewrite Hx, Hy. f_equal.
    destruct HA as (_ & _ & HA), HB as (_ & _ & HB). destruct (HA _ _ Hx) as [A1 A2], (HB _ _ Hy) as [B1 B2].
    destruct A2 as [->|(s & Hs & A2)].
    + destruct B2 as [->|(s & Hs & B2)]; [reflexivity|]. destruct (A1 _ _ Hs B2); auto.
    + destruct (B1 _ _ Hs A2) as [->|]; auto.
      destruct B2 as [->|(s' & Hs' & B2)]; [reflexivity|]. destruct (A1 _ _ Hs' B2); auto.
  - rewrite !right_none by lia. reflexivity.
Qed.
Lemma bshape_iff : forall shapes out, bshape shapes = Some out <-> Broadcast shapes out.
Proof.
  intros shapes out. unfold bshape. fold (bfold shapes). split.
  - destruct (bfold shapes) as [t|] eqn:E; [|discriminate]. cbn [option_map]. intros H. injection H as <-.
    now apply bfold_sound.
  - intros B. destruct (bfold_fits shapes (rev out)) as (t & E & F).
    { intros s Hs. exact (broadcast_fits _ _ _ B Hs). }
    rewrite E. cbn [option_map]. f_equal. exact (broadcast_unique _ _ _ (bfold_sound _ _ E) B).
Qed.
Lemma bshape_none : forall shapes, (forall out, ~ Broadcast shapes out) <-> bshape shapes = None.
Proof.
  intros shapes. split.
  - intros H. destruct (bshape shapes) as [out|] eqn:E; [|reflexivity]. apply bshape_iff in E. now apply H in E.
  - intros H out B. apply bshape_iff in B. congruence.
Qed.

(** ** [bindex] *)
Lemma bidx_nth : forall s idx j, nth_error (bidx s idx) j =
  match nth_error s j, nth_error idx j with Some n, Some x => Some (if n =? 1 then 0 else x) | _, _ => None end.
Proof.
  induction s as [|n s IH]; intros idx j; [destruct j; reflexivity|].
  destruct idx as [|x idx]; [destruct j as [|j]; cbn; [reflexivity|destruct (nth_error s j); reflexivity]|].
  destruct j as [|j]; cbn [bidx nth_error]; [reflexivity|apply IH].
Qed.
Lemma reads_bindex : forall s idx, Reads s idx (bindex s idx).
Proof. intros s idx j. unfold bindex. rewrite right_rev, bidx_nth. reflexivity. Qed.
Lemma reads_unique : forall s idx a b, Reads s idx a -> Reads s idx b -> a = b.
Proof. intros s idx a b HA HB. apply right_ext. intros j. now rewrite HA, HB. Qed.

(** ** Indices inside a shape, from the right *)
Lemma inshape_right : forall idx sh, InShape idx sh <->
  length idx = length sh /\ forall j x n, right j idx = Some x -> right j sh = Some n -> x < n.
Proof.
  intros idx sh. rewrite inshape_iff. split; intros [L H]; split; auto; intros j.
  - intros x n Hx Hn. pose proof (right_some _ _ _ _ Hx).
    rewrite (right_nth _ _ (length idx - S j)) in Hx by lia.
    rewrite (right_nth _ _ (length idx - S j)) in Hn by lia. eauto.
  - intros x n Hx Hn. assert (j < length idx) by (apply nth_error_Some; congruence).
    apply (H (length idx - S j)); rewrite (right_nth _ _ j) by lia; auto.
Qed.
Lemma right_shift : forall k j n idx i, k + S j = length idx ->
  right i (shift k n idx) = if i =? j then option_map (fun x => x + n) (right i idx) else right i idx.
Proof.
  intros k j n idx i H. unfold shift. rewrite (right_set_nth _ _ _ _ _ H).
  destruct (Nat.eqb_spec i j) as [->|]; [|reflexivity]. rewrite (right_nth _ _ _ _ H).
  rewrite (nth_error_nth' idx 0) by lia. reflexivity.
Qed.
Lemma length_shift : forall k n idx, length (shift k n idx) = length idx.
Proof. intros. unfold shift. apply length_set_nth. Qed.
