(** Proofs about the moving weighted median with doubles: any finite data and weights. *)
From Coq Require Import List ZArith Reals Bool Arith Permutation Lia.
From Verif Require Import PyBase MedModel MedSpec MedProofs MedProofs2 MedProofs3 MedProofs4 TruncModel TruncSpec BtModel BtSpec InvModel TfModel GqModel GqSpec GqProofs GqProofs2 GqProofs3 FtModel FtSpec FtProofs FtProofs2 FtProofs3.
Import ListNotations.
Open Scope Z_scope.

(** *** The values of the nodes *)
Section Values.
Context (P : Z -> Prop).
Fixpoint Fall (t : ftree) : Prop :=
  match t with FE => True | FN l d r _ _ _ _ => Fall l /\ P (fst d) /\ Fall r end.
Definition Fpath (p : fpath) : Prop := Forall (fun x => Fall (snd x) /\ snd x <> FE) p.
Definition Fnode (x : ftree * fpath) : Prop := Fall (fst x) /\ fst x <> FE /\ Fpath (snd x).
Lemma fall_value : forall t, Fall t -> t <> FE -> P (fnode_value t).
Proof. intros [|l d r a b c e] H Hne; [congruence|]. apply H. Qed.
Lemma fdescend_all : forall t p x y mid, Fall t -> Fpath p ->
  match fdescend t p x y mid with Some (t', p', _, _) => Fnode (t', p') | None => True end.
Proof.
  induction t as [|l IHl d r IHr a b c e]; intros p x y mid H Hp; cbn [fdescend]; [exact Logic.I|].
  assert (Hp' : forall s, Fpath ((s, FN l d r a b c e) :: p)) by (intro s; constructor; [split; [exact H|discriminate]|exact Hp]).
  destruct H as (Hl & Hd & Hr). destruct (lt64 _ _); [now apply IHl|]. destruct (lt64 _ _); [now apply IHr|].
  repeat split; auto. discriminate.
Qed.
Lemma ffind_min_all : forall t p, Fall t -> t <> FE -> Fpath p -> Fnode (ffind_min t p).
Proof.
  induction t as [|l IHl d r IHr a b c e]; intros p H Hne Hp; [congruence|]. cbn [ffind_min].
  destruct l as [|l1 d1 r1 a1 b1 c1 e1]; [repeat split; auto; apply H|].
  apply IHl; [apply H|discriminate|]. constructor; [split; [exact H|discriminate]|exact Hp].
Qed.
Lemma ffind_max_all : forall t p, Fall t -> t <> FE -> Fpath p -> Fnode (ffind_max t p).
Proof.
  induction t as [|l IHl d r IHr a b c e]; intros p H Hne Hp; [congruence|]. cbn [ffind_max].
  destruct r as [|l1 d1 r1 a1 b1 c1 e1]; [repeat split; auto; apply H|].
  apply IHr; [apply H|discriminate|]. constructor; [split; [exact H|discriminate]|exact Hp].
Qed.
Lemma fup_all : forall s p, Fpath p -> match fup_while s p with Some x => Fnode x | None => True end.
Proof.
  intros s p H. induction H as [|[s' t] p [H1 H2] H IH]; cbn [fup_while]; [exact Logic.I|].
  destruct (Bool.eqb _ _); [exact IH|]. repeat split; auto.
Qed.
Lemma fsucc_all : forall t p, Fall t -> Fpath p -> match fsuccessor t p with Some x => Fnode x | None => True end.
Proof.
  intros [|l d r a b c e] p H Hp; cbn [fsuccessor]; [exact Logic.I|]. destruct r as [|l1 d1 r1 a1 b1 c1 e1]; [now apply fup_all|].
  apply ffind_min_all; [apply H|discriminate|]. constructor; [split; [exact H|discriminate]|exact Hp].
Qed.
Lemma fpred_all : forall t p, Fall t -> Fpath p -> match fpredecessor t p with Some x => Fnode x | None => True end.
Proof.
  intros [|l d r a b c e] p H Hp; cbn [fpredecessor]; [exact Logic.I|]. destruct l as [|l1 d1 r1 a1 b1 c1 e1]; [now apply fup_all|].
  apply ffind_max_all; [apply H|discriminate|]. constructor; [split; [exact H|discriminate]|exact Hp].
Qed.
Lemma fsplit_down_all : forall fuel t p x mid acc, Fnode (t, p) -> Forall P acc -> Forall P (fsplit_down fuel t p x mid acc).
Proof.
  induction fuel as [|fuel IH]; intros t p x mid acc (H1 & H2 & H3) Ha; cbn [fsplit_down]; [exact Ha|].
  destruct (le64 _ _); [|exact Ha]. pose proof (fpred_all t p H1 H3) as K. destruct (fpredecessor t p) as [[t' p']|]; [|exact Ha].
  apply IH; [exact K|]. apply Forall_app. split; [exact Ha|]. constructor; [|constructor]. destruct K as (K1 & K2 & _). now apply fall_value.
Qed.
Lemma fsplit_up_all : forall fuel t p x mid acc, Fnode (t, p) -> Forall P acc -> Forall P (fsplit_up fuel t p x mid acc).
Proof.
  induction fuel as [|fuel IH]; intros t p x mid acc (H1 & H2 & H3) Ha; cbn [fsplit_up]; [exact Ha|].
  destruct (le64 _ _); [|exact Ha]. pose proof (fsucc_all t p H1 H3) as K. destruct (fsuccessor t p) as [[t' p']|]; [|exact Ha].
  apply IH; [exact K|]. apply Forall_app. split; [exact Ha|]. constructor; [|constructor]. destruct K as (K1 & K2 & _). now apply fall_value.
Qed.
Lemma fgo_higher_all : forall t x y mid, Fall t -> t <> FE -> P (fgo_higher t x y mid).
Proof.
  induction t as [|l IHl d r IHr a b c e]; intros x y mid H Hne; [congruence|]. cbn [fgo_higher].
  destruct (_ && _); [|apply H]. destruct r as [|l1 d1 r1 a1 b1 c1 e1]; [apply H|]. apply IHr; [apply H|discriminate].
Qed.
Lemma fgo_lower_all : forall t x y mid, Fall t -> t <> FE -> P (fgo_lower t x y mid).
Proof.
  induction t as [|l IHl d r IHr a b c e]; intros x y mid H Hne; [congruence|]. cbn [fgo_lower].
  destruct (_ && _); [|apply H]. destruct l as [|l1 d1 r1 a1 b1 c1 e1]; [apply H|]. apply IHl; [apply H|discriminate].
Qed.
Lemma fmedian_all : forall t m, Fall t ->
  match fweighted_median t m with
  | Ok vals => (t = FE /\ vals = [0]) \/ (t <> FE /\ vals <> [] /\ (m <> MSplit -> length vals = 1%nat) /\ Forall P vals)
  | Err x => x = OtherException
  end.
Proof.
  intros t m H. unfold fweighted_median. destruct t as [|l d r a b c e] eqn:Et; [now left|]. rewrite <- Et in *.
  assert (Hne : t <> FE) by (rewrite Et; discriminate). clear l d r a b c e Et.
  assert (Hp0 : Fpath []) by constructor. set (mid := div64 (ftotal_weight t) two64).
  pose proof (fdescend_all t [] 0 0 mid H Hp0) as K. destruct (fdescend t [] 0 0 mid) as [[[[n p] x] y]|]; [|reflexivity].
  right. split; [exact Hne|]. pose proof K as (K1 & K2 & K3). cbn [fst snd] in K1, K2, K3. pose proof (fall_value n K1 K2) as V.
  assert (L : forall fuel t p x acc, acc <> [] -> fsplit_down fuel t p x mid acc <> []).
  { generalize mid. clear. intros mid. induction fuel as [|fuel IH]; intros t p x acc Ha; cbn [fsplit_down]; [exact Ha|]. destruct (le64 _ _); [|exact Ha].
    destruct (fpredecessor t p) as [[t' p']|]; [|exact Ha]. apply IH. destruct acc; discriminate. }
  assert (L' : forall fuel t p x acc, acc <> [] -> fsplit_up fuel t p x mid acc <> []).
  { generalize mid. clear. intros mid. induction fuel as [|fuel IH]; intros t p x acc Ha; cbn [fsplit_up]; [exact Ha|]. destruct (le64 _ _); [|exact Ha].
    destruct (fsuccessor t p) as [[t' p']|]; [|exact Ha]. apply IH. destruct acc; discriminate. }
  destruct m.
  - split; [apply L', L; discriminate|]. split; [congruence|]. apply fsplit_up_all; [exact K|]. apply fsplit_down_all; [exact K|]. auto.
  - split; [discriminate|]. split; [reflexivity|]. constructor; [|constructor]. now apply fgo_lower_all.
  - split; [discriminate|]. split; [reflexivity|]. constructor; [|constructor]. now apply fgo_higher_all.
Qed.
End Values.

(** *** The window *)
Definition R0 (x : fdatum) (d : datum) : Prop := Units (fst x) (fst d) /\ Units (snd x) (snd d).
Definition Rany (_ _ : Z) : Prop := True.
Lemma R0_lt : forall x x' y y', R0 x x' -> R0 y y' -> fdlt x y = dlt x' y'.
Proof.
  intros x x' y y' [U1 M1] [U2 M2]. unfold fdlt, dlt.
  now rewrite (eq64_units _ _ _ _ U1 U2), (lt64_units _ _ _ _ U1 U2), (lt64_units _ _ _ _ M1 M2).
Qed.
Lemma R0_eq : forall x x' y y', R0 x x' -> R0 y y' -> fdeq x y = deq x' y'.
Proof. intros x x' y y' [U1 M1] [U2 M2]. unfold fdeq, deq. now rewrite (eq64_units _ _ _ _ U1 U2), (eq64_units _ _ _ _ M1 M2). Qed.
Lemma unit_zero : Units 0 0.
Proof. split; [split; vm_compute; congruence|vm_compute; reflexivity]. Qed.
Lemma R0_zero : forall x x', R0 x x' -> eq64 (snd x) 0 = (snd x' =? 0).
Proof. intros x x' [_ M]. apply (eq64_units _ _ _ _ M unit_zero). Qed.
Lemma R0_dummy : R0 (0, 0) (0, 0).
Proof. split; apply unit_zero. Qed.
Lemma Rany_w : forall x x', R0 x x' -> Rany (snd x) (snd x').
Proof. intros; exact Logic.I. Qed.
Lemma Rany_0 : Rany 0 0.
Proof. exact Logic.I. Qed.
Lemma Rany_add : forall a x b y, Rany a x -> Rany b y -> Rany (add64 a b) (x + y).
Proof. intros; exact Logic.I. Qed.
Lemma rt_fall : forall ft t, RT R0 Rany ft t -> forall Q : Z -> Prop, (forall d, In d (inorder t) -> Q (fst d)) ->
  Fall (fun x => exists u, Units x u /\ Q u) ft.
Proof.
  intros ft t H. induction H as [|fl l fd d fr r lh rh flw lw frw rw Hl IHl Hd Hr IHr Hlw Hrw]; intros Q HQ; cbn [Fall]; [exact Logic.I|].
  cbn [inorder] in HQ. split; [|split].
  - apply IHl. intros z Hz. apply HQ, in_app_iff. now left.
  - exists (fst d). split; [apply Hd|]. apply HQ, in_app_iff. right. now left.
  - apply IHr. intros z Hz. apply HQ, in_app_iff. right. now right.
Qed.
Section Shape.
Context (m : method) (frows : list (list fdatum)) (rows : list (list datum)) (half width : nat).
Context (Hrows : Forall2 (Forall2 R0) frows rows).
Context (Hw : Forall (fun r => length r = width) rows).
Notation Rst0 := (Rst R0 Rany).
Lemma shape_report : forall nan i fs st, Rst0 fs st -> inv st (window_rows rows half i) ->
  match freport nan (fst fs) m with Ok v => shape_cell nan m (window_rows rows half i) v | Err x => x = OtherException end.
Proof.
  intros nan i [ft ff] [t fi] [H1 H2] (I1 & I2 & I3 & I4). cbn [fst snd] in *.
  pose proof (rt_fall ft t H1 (fun u => exists d, In d (weighty (window_rows rows half i)) /\ fst d = u)) as F.
  specialize (F (fun d Hd => ex_intro _ d (conj (Permutation_in _ I4 Hd) eq_refl))).
  pose proof (fmedian_all _ ft m F) as M. unfold freport.
  assert (Hemp : ft = FE <-> weighty (window_rows rows half i) = []).
  { split; intro E0.
    - subst ft. inversion H1; subst. cbn [inorder] in I4. now apply Permutation_nil.
    - rewrite E0 in I4. apply Permutation_sym, Permutation_nil in I4. destruct H1; [reflexivity|]. cbn [inorder] in I4. exfalso. exact (app_cons_not_nil _ _ _ (eq_sym I4)). }
  assert (Hc : forall vals, ft <> FE -> vals <> [] /\ (m <> MSplit -> length vals = 1%nat) /\
      Forall (fun x => exists u, Units x u /\ exists d, In d (weighty (window_rows rows half i)) /\ fst d = u) vals ->
      shape_cell nan m (window_rows rows half i) (Some vals)).
  { intros vals Hne (V1 & V2 & V3). split; [|intro E0; apply Hemp in E0; congruence]. intros _. exists vals.
    split; [reflexivity|]. split; [exact V1|]. split; [exact V2|]. eapply Forall_impl; [|exact V3].
    intros x (u & Hu & d & Hd & <-). eauto. }
  destruct nan.
  - destruct ft as [|l d r a b c e] eqn:Et.
    + split; [|reflexivity]. intro Hne. exfalso. apply Hne, Hemp. reflexivity.
    + rewrite <- Et in *. destruct (fweighted_median ft m) as [vals|x]; cbn [rbind]; [|exact M].
      destruct M as [[E0 _]|[E0 V]]; [congruence|]. now apply Hc.
  - assert (K : match rbind (fweighted_median ft m) (fun v => Ok (Some v)) with
       | Ok v => shape_cell false m (window_rows rows half i) v | Err x => x = OtherException end).
    { destruct (fweighted_median ft m) as [vals|x]; cbn [rbind]; [|exact M].
      destruct M as [[E0 ->]|[E0 V]]; [|now apply Hc]. split; [intro Hne; exfalso; apply Hne, Hemp, E0|reflexivity]. }
    destruct ft; exact K.
Qed.
Lemma shape_loop : forall nan todo i fs st, Rst0 fs st -> (1 <= i)%nat -> (i + todo = length rows)%nat ->
  inv st (window_rows rows half (i - 1)) ->
  match fmwm_loop frows half width nan m todo i fs with
  | Ok vs => length vs = todo /\ forall k v, nth_error vs k = Some v -> shape_cell nan m (window_rows rows half (i + k)) v
  | Err x => x = OtherException
  end.
Proof.
  intro nan. induction todo as [|todo IH]; intros i fs st Hs Hi Hn Hst; cbn [fmwm_loop].
  { split; [reflexivity|]. intros [|k] v E0; discriminate. }
  assert (Hmid : exists fs1 st1, (if (half + 1 <=? i)%nat then fleave_n width fs else Ok fs) = Ok fs1 /\ Rst0 fs1 st1 /\
    inv st1 (concat (lslice (i - half) (i + half) rows))).
  { unfold window_rows in Hst. replace (i - 1 + half + 1)%nat with (i + half)%nat in Hst by lia.
    destruct (Nat.leb_spec (half + 1) i) as [Hc|Hc].
    - destruct (lslice_cons _ rows (i - 1 - half) (i + half)) as (r & K1 & K2); [lia|lia|].
      rewrite K2 in Hst. cbn [concat] in Hst.
      assert (Hr : length r = width).
      { rewrite Forall_forall in Hw. apply Hw. eapply nth_error_In; eauto. }
      replace (i - 1 - half + 1)%nat with (i - half)%nat in Hst by lia.
      destruct (leave_n_inv _ _ _ Hst) as (st' & E1 & E2). rewrite Hr in E1.
      pose proof (leave_n_sim R0 Rany R0_lt R0_eq Rany_w Rany_0 Rany_add R0_zero width _ _ Hs) as L.
      rewrite E1 in L. destruct (fleave_n width fs) as [fs1|]; [|contradiction].
      exists fs1, st'. auto.
    - exists fs, st. replace (i - 1 - half)%nat with (i - half)%nat in Hst by lia. auto. }
  destruct Hmid as (fs1 & st1 & F1 & S1 & I1). rewrite F1. cbn [rbind].
  set (st2 := match nth_error rows (i + half) with Some xs => enter_all xs st1 | None => st1 end).
  set (fs2 := match nth_error frows (i + half) with Some xs => fenter_all xs fs1 | None => fs1 end).
  assert (I2 : inv st2 (window_rows rows half i)).
  { unfold window_rows. rewrite lslice_snoc by lia. rewrite concat_app.
    subst st2. destruct (nth_error rows (i + half)) as [xs|]; cbn [concat].
    - rewrite app_nil_r. now apply enter_all_inv.
    - rewrite app_nil_r. exact I1. }
  assert (S2 : Rst0 fs2 st2).
  { subst st2 fs2. pose proof (nth_rows R0 frows rows Hrows (i + half)) as K. destruct (nth_error frows _), (nth_error rows _); try contradiction; auto.
    apply (enter_all_sim R0 Rany R0_lt Rany_w Rany_0 Rany_add R0_zero R0_dummy); auto. }
  pose proof (shape_report nan i fs2 st2 S2 I2) as P.
  destruct (freport nan (fst fs2) m) as [v0|]; cbn [rbind]; [|exact P].
  pose proof (IH (S i) fs2 st2 S2 ltac:(lia) ltac:(lia)) as Q. replace (S i - 1)%nat with i in Q by lia. specialize (Q I2).
  destruct (fmwm_loop _ _ _ _ _ _ _ _) as [vs|]; cbn [rbind]; [|exact Q]. destruct Q as [Q1 Q2]. split; [cbn; congruence|].
  intros [|k] v Hk; cbn [nth_error] in Hk.
  - injection Hk as <-. now rewrite Nat.add_0_r.
  - replace (i + S k)%nat with (S i + k)%nat by lia. now apply Q2.
Qed.
Lemma shape_rows : forall nan, rows <> [] ->
  match fmwm_rows frows half width nan m with
  | Ok vs => length vs = length rows /\ forall k v, nth_error vs k = Some v ->
      shape_cell (if (k =? 0)%nat then false else nan) m (window_rows rows half k) v
  | Err x => x = OtherException
  end.
Proof.
  intros nan Hne. unfold fmwm_rows.
  assert (Hlen : (0 < length rows)%nat) by (destruct rows; [congruence|cbn; lia]).
  assert (I0 : inv (enter_all (concat (firstn (half + 1) rows)) (E, [])) (window_rows rows half 0)).
  { unfold window_rows, lslice. cbn [Nat.sub skipn]. rewrite Nat.sub_0_r.
    apply (enter_all_inv _ (E, []) []), inv_empty. }
  pose proof (enter_all_sim R0 Rany R0_lt Rany_w Rany_0 Rany_add R0_zero R0_dummy _ _ (firstn_rows R0 frows rows Hrows (half + 1)) _ _ (start_sim R0 Rany)) as S0.
  pose proof (shape_report false 0 _ _ S0 I0) as P.
  destruct (freport _ _ _) as [v0|]; cbn [rbind]; [|exact P].
  assert (Hl : length frows = length rows) by (eapply forall2_length; exact Hrows).
  rewrite Hl.
  pose proof (shape_loop nan (length rows - 1) 1 _ _ S0 ltac:(lia) ltac:(lia) I0) as Q.
  destruct (fmwm_loop _ _ _ _ _ _ _ _) as [vs|]; cbn [rbind]; [|exact Q]. destruct Q as [Q1 Q2].
  split; [cbn [length]; lia|]. intros [|k] v Hk; cbn [nth_error] in Hk; [injection Hk as <-; exact P|]. exact (Q2 k v Hk).
Qed.
End Shape.

Theorem moving_1d_shape : forall fl l size m, Row Units fl l -> l <> [] -> Nat.odd size = true -> (1 < size)%nat ->
  match fmoving_1d fl size m with
  | Ok vs => length vs = length l /\ forall i v, nth_error vs i = Some v -> shape_cell (negb (i =? 0)%nat) m (window1 l (size / 2) i) v
  | Err x => x = OtherException
  end.
Proof.
  intros fl l size m H Hne Hodd Hs. unfold fmoving_1d.
  destruct (Nat.eqb_spec size 0); [lia|]. destruct (Nat.eqb_spec size 1); [lia|]. rewrite <- Nat.negb_odd, Hodd. cbn [negb].
  unfold fmwm_1D. assert (Hfl : fl <> []) by (intro E0; apply forall2_length in H; subst fl; destruct l; [now apply Hne|discriminate]). destruct fl as [|x0 fl0] eqn:Ef; [congruence|]. rewrite <- Ef in *. clear Ef x0 fl0.
  pose proof (shape_rows m (map (fun x => [x]) fl) (map (fun x => [x]) l) (size / 2) 1) as P.
  assert (H1 : Forall2 (Forall2 R0) (map (fun x => [x]) fl) (map (fun x => [x]) l)).
  { clear - H. induction H; cbn [map]; constructor; auto. }
  assert (H2 : Forall (fun r : list datum => length r = 1%nat) (map (fun x => [x]) l)).
  { apply Forall_forall. intros r Hr. apply in_map_iff in Hr as (y & <- & _). reflexivity. }
  specialize (P H1 H2 true). specialize (P ltac:(destruct l; [congruence|discriminate])).
  destruct (fmwm_rows _ _ _ _ _) as [vs|]; [|exact P]. destruct P as [P1 P2]. rewrite map_length in P1. split; [exact P1|].
  intros i v Hv. specialize (P2 i v Hv). rewrite window_single in P2. destruct (i =? 0)%nat; exact P2.
Qed.
