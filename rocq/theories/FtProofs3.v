(** Proofs about the moving weighted median with doubles: one and two dimensions. *)
From Coq Require Import List ZArith Reals Bool Arith Permutation Lia Lra.
From Flocq Require Import Core.Core IEEE754.Binary IEEE754.Bits.
From Verif Require Import PyBase MedModel MedSpec MedProofs MedProofs2 MedProofs3 MedProofs4 TruncModel TruncSpec TruncProofs BtModel BtSpec BtProofs BtProofs2 BtProofs3 BtProofs5 InvModel InvProofs InvProps TfModel TfProofs GqModel GqSpec GqProofs GqProofs2 GqProofs3 FtModel FtSpec FtProofs FtProofs2.
Import ListNotations.
Open Scope Z_scope.

(** *** At most two values are averaged *)
Lemma split_count : forall t a b, t <> E -> avl t -> ordered (inorder t) -> positive (inorder t) ->
  weighted_median t MSplit = Ok (a, b) -> b = 1 \/ b = 2.
Proof.
  intros t a0 b0 Hne Ha Ho Hpos.
  destruct (median_node t Hne Ha Hpos)
    as (l & d & r & a & b & c & e & p & prev & next & P & S & R1 & R2 & R3 & R4 & R5 & R6 & R7 & R8 & R9 & R10 & R11).
  assert (HT0 : 0 < total_weight t).
  { rewrite avl_weight by assumption. apply weight_total_pos; [assumption|]. rewrite R6. destruct P; discriminate. }
  assert (HT : total_weight t = weight_total P + snd d + weight_total S).
  { rewrite avl_weight by assumption. rewrite R6. rewrite weight_total_app, weight_total_cons. lia. }
  unfold weighted_median. destruct t as [|tl td tr ta tb tc te] eqn:Et; [congruence|].
  rewrite <- Et in *. rewrite R1. cbn [node_value].
  rewrite R6 in Ho, Hpos.
  pose proof Hpos as Hpos'. apply Forall_app in Hpos' as [HpP HpS]. inversion HpS as [|? ? _ HpS']; subst x l0.
  set (acc := split_down _ _ _ _ _ _).
  destruct (split_down_spec (tree_nodes t) l d r a b c e p next (total_weight t) P S (fst d, 1)
              R2 R3 R4 R8 HT HT0 HpP R9 R10 (tree_nodes_pos t Hne)) as [(G & P' & d' & EP & EA)|(G & EA)];
  destruct (split_up_spec (tree_nodes t) l d r a b c e p prev (total_weight t) P S acc
              R2 R3 R5 R7 HT HT0 HpS' R9 R11 (tree_nodes_pos t Hne)) as [(G' & d2 & S' & ES & EB)|(G' & EB)];
  fold acc in EA.
  - exfalso. lia.
  - rewrite EB, EA. cbn [fst snd]. intros [= _ E0]. lia.
  - rewrite EB, EA. cbn [fst snd]. intros [= _ E0]. lia.
  - rewrite EB, EA. cbn [fst snd]. intros [= _ E0]. lia.
Qed.

Definition Bsmall (m : method) (u : Z) : Prop := m = MSplit -> Z.abs u < 2 ^ 2096.
Lemma Bsmall_0 : forall m, Bsmall m 0.
Proof. intros m _. change (Z.abs 0) with 0. apply Z.pow_pos_nonneg; lia. Qed.
Definition Ra2 (m : method) (fa : list Z) (a : Z * Z) : Prop :=
  Ra (Bsmall m) fa a /\ (snd a = 1 \/ snd a = 2 /\ m = MSplit).
Lemma median_sim2 : forall e ft t m, -1073 <= e <= 900 -> RT (Rm e (Bsmall m)) (RS e) ft t -> avl t -> ordered (inorder t) -> positive (inorder t) ->
  4 * weight_total (inorder t) <= 2 ^ 53 -> Rres (Ra2 m) (fweighted_median ft m) (weighted_median t m).
Proof.
  intros e ft t m He H Ha Ho Hp HT. pose proof (median_sim e _ ft t m He (Bsmall_0 m) H Ha (positive_nonneg _ Hp) HT) as M.
  assert (K : forall ans, weighted_median t m = Ok ans -> snd ans = 1 \/ snd ans = 2 /\ m = MSplit).
  { intros [a b] Ea. destruct t as [|l d r h1 h2 w1 w2] eqn:Et; [injection Ea as <- <-; now left|]. rewrite <- Et in *. destruct m.
    - assert (Hne : t <> E) by (rewrite Et; discriminate). destruct (split_count t a b Hne Ha Ho Hp Ea); auto.
    - unfold weighted_median in Ea. rewrite Et in Ea. destruct (descend _ _ _ _ _) as [[[[n p] x] y]|]; [|discriminate].
      injection Ea as <- <-. now left.
    - unfold weighted_median in Ea. rewrite Et in Ea. destruct (descend _ _ _ _ _) as [[[[n p] x] y]|]; [|discriminate].
      injection Ea as <- <-. now left. }
  destruct (fweighted_median ft m), (weighted_median t m); cbn [Rres] in *; try contradiction; auto. split; auto.
Qed.

(** *** The mean of one or two values *)
Lemma units_value : forall w u, Word 64 w -> IsDouble w (IZR u / 2 ^ 1074) -> Units w u.
Proof.
  intros w u W (z & E & V). split; [exact W|]. rewrite E. f_equal. apply eq_IZR.
  pose proof (pow2_R_pos 1074) as P. apply Rmult_eq_reg_r with (/ 2 ^ 1074)%R; [now symmetry|].
  apply Rgt_not_eq, Rinv_0_lt_compat, P.
Qed.
Lemma quarter_bound : forall u k, Z.abs u < 2 ^ (1074 + Z.of_nat k) -> (Rabs (IZR u / 2 ^ 1074) < 2 ^ k)%R.
Proof.
  intros u k H. unfold Rdiv. rewrite Rabs_mult, (Rabs_pos_eq (/ _)) by (left; apply Rinv_0_lt_compat, pow2_R_pos).
  pose proof (pow2_R_pos 1074) as P. apply Rmult_lt_reg_r with (2 ^ 1074)%R; [exact P|].
  rewrite Rmult_assoc, Rinv_l, Rmult_1_r by (apply Rgt_not_eq, P). rewrite <- pow_add, pow2_R, <- abs_IZR. apply IZR_lt.
  rewrite Nat2Z.inj_add. now replace (Z.of_nat k + Z.of_nat 1074) with (1074 + Z.of_nat k) by lia.
Qed.
Lemma mean_one : forall x u, Units x u -> Z.abs u < 2 ^ 2096 -> Units (mean64 [x]) u.
Proof.
  intros x u H L. destruct (units_double _ _ H) as [W V]. cbn [mean64 fold_left length]. change (Z.of_nat 1) with 1.
  apply units_value; [apply w64_f64|].
  pose proof (double_format x _ W V) as F.
  assert (E1 : (IZR u / 2 ^ 1074 / 1 = IZR u / 2 ^ 1074)%R) by (generalize (IZR u / 2 ^ 1074)%R; intro r; field).
  assert (B : (Rabs (IZR u / 2 ^ 1074 / 1) < 2 ^ 1023)%R).
  { rewrite E1. apply (quarter_bound u 1023). eapply Z.lt_trans; [exact L|]. apply Z.pow_lt_mono_r; lia. }
  pose proof (div64_quot x (of_int 1) _ _ W (of_int_word 1) V (of_int_exact 1 ltac:(lia)) R1_neq_R0 B) as D.
  rewrite E1 in D. rewrite (round_generic radix2 (FLT_exp (-1074) 53) ZnearestE (IZR u / 2 ^ 1074) F) in D. exact D.
Qed.
Lemma double_twice : forall v, generic_format radix2 (FLT_exp (-1074) 53) v -> generic_format radix2 (FLT_exp (-1074) 53) (2 * v)%R.
Proof.
  intros v H. apply FLT_format_generic in H; [|reflexivity]. destruct H as [f E1 E2 E3].
  apply generic_format_FLT. exists (Float radix2 (Fnum f) (Fexp f + 1)).
  - rewrite E1. unfold F2R. cbn [Fnum Fexp]. rewrite bpow_plus. change (bpow radix2 1) with 2%R. ring.
  - exact E2.
  - cbn [Fexp]. lia.
Qed.
Lemma nearest_double : forall v, generic_format radix2 (FLT_exp (-1074) 53) v -> nearest64 v = v.
Proof. intros v H. apply round_generic; [typeclasses eauto|exact H]. Qed.
Lemma mean_one_split : forall x u lo hi, Units x u -> Z.abs u < 2 ^ 2096 -> 2 * u = lo + hi ->
  IsDouble (mean64 [x]) (nearest64 (nearest64 (IZR (lo + hi) / 2 ^ 1074) / 2)).
Proof.
  intros x u lo hi H L E. destruct (units_double _ _ (mean_one x u H L)) as [_ V]. destruct (units_double _ _ H) as [W V0].
  pose proof (double_format x _ W V0) as F. rewrite <- E, mult_IZR.
  replace (2 * IZR u / 2 ^ 1074)%R with (2 * (IZR u / 2 ^ 1074))%R by (unfold Rdiv; ring).
  rewrite (nearest_double _ (double_twice _ F)).
  replace (2 * (IZR u / 2 ^ 1074) / 2)%R with (IZR u / 2 ^ 1074)%R; [rewrite (nearest_double _ F); exact V|].
  generalize (IZR u / 2 ^ 1074)%R. intro r. field.
Qed.
Lemma mean_two : forall x y u v, Units x u -> Units y v -> Z.abs u < 2 ^ 2096 -> Z.abs v < 2 ^ 2096 ->
  IsDouble (mean64 [x; y]) (nearest64 (nearest64 (IZR (u + v) / 2 ^ 1074) / 2)).
Proof.
  intros x y u v Hx Hy Lu Lv. destruct (units_double _ _ Hx) as [Wx Vx]. destruct (units_double _ _ Hy) as [Wy Vy].
  cbn [mean64 fold_left length]. change (Z.of_nat 2) with 2.
  assert (Es : (IZR u / 2 ^ 1074 + IZR v / 2 ^ 1074 = IZR (u + v) / 2 ^ 1074)%R) by (rewrite plus_IZR; unfold Rdiv; ring).
  assert (B : (Rabs (IZR (u + v) / 2 ^ 1074) < 2 ^ 1023)%R).
  { apply (quarter_bound (u + v) 1023). change (1074 + Z.of_nat 1023) with (Z.succ 2096). rewrite Z.pow_succ_r by lia.
    generalize dependent (2 ^ 2096). intros; lia. }
  assert (D : IsDouble (add64 x y) (rnd64 (IZR (u + v) / 2 ^ 1074))).
  { rewrite <- Es. apply add64_round; auto. rewrite Es. exact B. }
  unfold nearest64. apply div64_quot; auto; [apply w64_f64|apply of_int_word|apply of_int_exact; lia|].
  pose proof (below64 _ B) as K. change 1024 with (Z.of_nat 1024) in K. rewrite bpow_nat in K.
  replace (2 ^ 1024)%R with (2 * 2 ^ 1023)%R in K by (rewrite tech_pow_Rmult; reflexivity).
  unfold Rdiv at 1. rewrite Rabs_mult, (Rabs_pos_eq (/ 2)) by lra. pose proof (pow2_R_pos 1023) as P.
  generalize dependent (rnd64 (IZR (u + v) / 2 ^ 1074)). intros r _ K. generalize dependent (2 ^ 1023)%R. intros; lra.
Qed.

(** *** One cell *)
Lemma cell_sim : forall nan m w fv v, Ropt (Ra2 m) fv v -> cell_ok nan m w v -> fcell_ok nan m w (option_map (fvalue m) fv).
Proof.
  intros nan m w fv v H [C1 C2]. split.
  - intro Hne. destruct (C1 Hne) as ([a b] & -> & A). destruct fv as [fa|]; [|contradiction].
    cbn [Ropt option_map] in *. exists (fvalue m fa). split; [reflexivity|].
    destruct H as ((us & Hu & E0) & Hb). cbn [snd] in Hb. injection E0 as Ea Eb.
    unfold median_answer, quantile_answer in A. destruct A as [_ A]. destruct m.
    + destruct A as (lo & hi & Q1 & Q2 & Q3). exists lo, hi. split; [exact Q1|]. split; [exact Q2|].
      cbn [fvalue]. destruct Hu as [|x u l us [Hx Sx] Hu]; [cbn in Eb; lia|].
      destruct Hu as [|y u' l us [Hy Sy] Hu]; cbn [fold_right length] in *.
      * apply (mean_one_split x u); auto. lia.
      * destruct Hu as [|z u'' l us Hz Hu]; [|cbn [length] in *; lia].
        replace (lo + hi) with (u + u') by (cbn [fold_right length] in *; lia). apply mean_two; auto.
    + destruct A as (u & Q & E). exists u. split; [exact Q|]. destruct Hb as [Hb|[_ Hb]]; [|discriminate].
      destruct Hu as [|x u0 l us [Hx Sx] Hu]; [cbn in Eb; lia|]. destruct Hu; [|cbn [length] in *; lia].
      cbn [fvalue hd]. cbn [fold_right length] in *. replace u with u0 by nia. exact Hx.
    + destruct A as (u & Q & E). exists u. split; [exact Q|]. destruct Hb as [Hb|[_ Hb]]; [|discriminate].
      destruct Hu as [|x u0 l us [Hx Sx] Hu]; [cbn in Eb; lia|]. destruct Hu; [|cbn [length] in *; lia].
      cbn [fvalue hd]. cbn [fold_right length] in *. replace u with u0 by nia. exact Hx.
  - intro E0. rewrite (C2 E0) in H. destruct nan; [destruct fv; [contradiction|reflexivity]|].
    destruct fv as [fa|]; [|contradiction]. cbn [Ropt option_map] in *. exists (fvalue m fa). split; [reflexivity|].
    destruct H as ((us & Hu & E1) & _). injection E1 as Ea Eb. destruct Hu as [|x u l us [Hx Sx] Hu]; [cbn in Eb; lia|].
    destruct Hu; [|cbn [length] in *; lia]. cbn [fold_right] in Ea. replace u with 0 in Hx by lia.
    destruct m; cbn [fvalue hd]; auto. apply mean_one; [exact Hx|]. change (Z.abs 0) with 0. apply Z.pow_pos_nonneg; lia.
Qed.

(** *** One dimension *)
Definition Rows e m (fl : list fdatum) (l : list datum) : Prop := Forall2 (Rm e (Bsmall m)) fl l.
Lemma rows_of : forall e m fl l, Row (Multiple e) fl l -> (m = MSplit -> small_values l) -> Rows e m fl l.
Proof.
  intros e m fl l H Hs. induction H as [|x d fl l [U M] H IH]; constructor.
  - split; [|exact M]. split; [exact U|]. intro Em. specialize (Hs Em). inversion Hs; auto.
  - apply IH. intro Em. specialize (Hs Em). inversion Hs; auto.
Qed.
Lemma rows_nonneg : forall e m fl l, Rows e m fl l -> nonneg l.
Proof. intros e m fl l H. induction H as [|x d fl l [_ M] H IH]; constructor; auto. apply M. Qed.
Lemma weight_weighty : forall l, weight_total (weighty l) = weight_total l.
Proof.
  induction l as [|x l IH]; [reflexivity|]. unfold weighty in *. cbn [filter].
  destruct (Z.eqb_spec (snd x) 0) as [E0|E0]; cbn [negb]; rewrite ?weight_total_cons; lia.
Qed.
Lemma rows_sim : forall e m frows rows half width nan, -1073 <= e <= 900 -> Forall2 (Rows e m) frows rows ->
  Forall (fun r => length r = width) rows -> rows <> [] ->
  (forall i, (i < length rows)%nat -> 4 * weight_total (window_rows rows half i) <= 2 ^ 53) ->
  Rres (Forall2 (Ropt (Ra2 m))) (fmwm_rows frows half width nan m) (mwm_rows rows half width nan m).
Proof.
  intros e m frows rows half width nan He Hr Hw Hne HT.
  apply (mwm_rows_sim (Rm e (Bsmall m)) (RS e) (Rm_lt e _) (Rm_eq e _) (Rm_w e _) (RS_0 e) (RS_add e He) (Rm_zero e _) (Rm_dummy e _ (Bsmall_0 m))); auto.
  intros i ft t H Hi Ha Ho Hp.
  assert (Hn : Forall nonneg rows).
  { clear - Hr. induction Hr as [|? ? ? ? H Hr IH]; constructor; auto. eapply rows_nonneg; exact H. }
  apply (median_sim2 e); auto.
  - eapply Permutation_Forall; [apply Permutation_sym, Hp|]. apply weighty_positive, nonneg_window, Hn.
  - unfold weight_total. rewrite (sum_weights_perm _ _ _ Hp). fold (weight_total (weighty (window_rows rows half i))).
    rewrite weight_weighty. now apply HT.
Qed.
Lemma window_single : forall data half i, window_rows (map (fun x : datum => [x]) data) half i = window1 data half i.
Proof.
  intros data half i. unfold window_rows, window1. rewrite lslice_map.
  generalize (lslice (i - half) (i + half + 1) data). induction l as [|x l IH]; cbn; congruence.
Qed.
Lemma moving_1d_sim : forall e fl l size m, -1073 <= e <= 900 -> Rows e m fl l -> l <> [] ->
  (forall i, (i < length l)%nat -> 4 * weight_total (window1 l (size / 2) i) <= 2 ^ 53) ->
  Rres (Forall2 (Ropt (Ra2 m))) (fmoving_1d fl size m) (moving_1d l size m).
Proof.
  intros e fl l size m He H Hne HT. unfold fmoving_1d, moving_1d.
  destruct (size =? 0)%nat; [reflexivity|]. destruct (size =? 1)%nat.
  { cbn [Rres]. clear - H. induction H as [|x d fl l Hx H IH]; cbn [map]; constructor; auto.
    rewrite (Rm_zero e _ _ _ Hx). destruct Hx as [[U B] M]. destruct (Z.eqb_spec (snd d) 0) as [E0|E0]; cbn [Ropt].
    - split; [|now left]. apply Ra_one. split; [|apply Bsmall_0]. destruct M as (W & _ & V). apply units_value; [exact W|].
      rewrite E0 in V. replace (IZR 0 / 2 ^ 1074)%R with (IZR 0 * bpow radix2 e)%R; [exact V|]. unfold Rdiv. rewrite !Rmult_0_l. reflexivity.
    - split; [|now left]. apply Ra_one. auto. }
  destruct (Nat.even size); [reflexivity|]. unfold fmwm_1D, mwm_1D.
  destruct H as [|x d fl l Hx H]; [congruence|].
  apply (rows_sim e); auto; try discriminate.
  - constructor; [constructor; [exact Hx|constructor]|]. clear - H. induction H; cbn; constructor; auto. constructor; [assumption|constructor].
  - apply Forall_forall. intros r Hr. apply in_map_iff in Hr as (y & <- & _). reflexivity.
  - intros i Hi. rewrite map_length in Hi. rewrite window_single. now apply HT.
Qed.
Lemma cells_sim : forall m fvs vs, Forall2 (Ropt (Ra2 m)) fvs vs ->
  forall i y, nth_error (map (option_map (fvalue m)) fvs) i = Some y ->
  exists fv v, y = option_map (fvalue m) fv /\ nth_error vs i = Some v /\ Ropt (Ra2 m) fv v.
Proof.
  intros m fvs vs H. induction H as [|fv v fvs vs Hv H IH]; intros [|i] y E0; cbn in E0; try discriminate.
  - injection E0 as <-. exists fv, v. auto.
  - now apply IH.
Qed.
Lemma forall2_length : forall A B (R : A -> B -> Prop) l l', Forall2 R l l' -> length l = length l'.
Proof. intros A B R l l' H. induction H; cbn; congruence. Qed.
Theorem median_1d_exact : forall e fl l size m, -1073 <= e <= 900 -> Row (Multiple e) fl l -> (m = MSplit -> small_values l) -> l <> [] ->
  Nat.odd size = true -> (forall i, (i < length l)%nat -> weight_total (window1 l (size / 2) i) <= 2 ^ 51) ->
  (m = MSplit \/ forall i, (i < length l)%nat -> ~ window_tie (weighty (window1 l (size / 2) i))) ->
  exists vs, fmedian_1d fl size m = Ok vs /\ length vs = length l /\
    forall i v, nth_error vs i = Some v ->
      fcell_ok (negb (i =? 0)%nat && negb (size =? 1)%nat) m (window1 l (size / 2) i) v.
Proof.
  intros e fl l size m He Hr Hs Hne Hodd HT Htie. pose proof (rows_of e m fl l Hr Hs) as H.
  destruct (moving_1d_ok l size m Hne (rows_nonneg _ _ _ _ H) Hodd Htie) as (vs & E1 & E2 & E3).
  pose proof (moving_1d_sim e fl l size m He H Hne) as S0. rewrite E1 in S0.
  specialize (S0 (fun i Hi => ltac:(specialize (HT i Hi); lia))).
  unfold fmedian_1d. destruct (fmoving_1d fl size m) as [fvs|x]; [|contradiction]. cbn [rbind Rres] in *.
  eexists. split; [reflexivity|]. split; [rewrite map_length, <- E2; eapply forall2_length; exact S0|].
  intros i y Hy. destruct (cells_sim m fvs vs S0 i y Hy) as (fv & v & -> & Hv & Rv). apply (cell_sim _ _ _ _ v); auto.
Qed.

(** *** Two dimensions *)
Lemma lslice_sim : forall A B (R : A -> B -> Prop) a b l l', Forall2 R l l' -> Forall2 R (lslice a b l) (lslice a b l').
Proof.
  intros A B R a b l l' H. unfold lslice. generalize (b - a)%nat as n. intro n.
  assert (K : Forall2 R (skipn a l) (skipn a l')).
  { revert a. induction H as [|x y l l' Hx H IH]; intros [|a]; cbn [skipn]; auto. }
  revert K. generalize (skipn a l) (skipn a l'). intros k k' K. revert n. induction K as [|x y k k' Hx K IH]; intros [|n]; cbn [firstn]; auto.
Qed.
Lemma res_map_sim : forall A B C (R : B -> C -> Prop) (f : A -> res B) (g : A -> res C) l,
  (forall x, In x l -> Rres R (f x) (g x)) -> Rres (Forall2 R) (res_map f l) (res_map g l).
Proof.
  intros A B C R f g. induction l as [|x l IH]; intro H; cbn [res_map]; [constructor|].
  pose proof (H x (or_introl eq_refl)) as P. destruct (f x), (g x); cbn [Rres rbind] in *; try contradiction; [|exact P].
  specialize (IH (fun y Hy => H y (or_intror Hy))). destruct (res_map f l), (res_map g l); cbn [Rres rbind] in *; try contradiction; [|exact IH].
  now constructor.
Qed.
Lemma nth_sim : forall A B (R : A -> B -> Prop) d d' l l' k, R d d' -> Forall2 R l l' -> R (nth k l d) (nth k l' d').
Proof. intros A B R d d' l l' k Hd H. revert k. induction H; intros [|k]; cbn; auto. Qed.
Lemma transpose_sim : forall A B (R : A -> B -> Prop) d d' n a a', R d d' -> Forall2 (Forall2 R) a a' ->
  Forall2 (Forall2 R) (transpose d n a) (transpose d' n a').
Proof.
  intros A B R d d' n a a' Hd H. unfold transpose. generalize (seq 0 n). induction l as [|k l IH]; cbn [map]; constructor; auto.
  clear - Hd H. induction H as [|r r' a a' Hr H IH]; cbn [map]; constructor; auto. now apply nth_sim.
Qed.
Lemma mwm_2D_sim : forall e m fdata data len_x sy sx, -1073 <= e <= 900 -> Forall2 (Rows e m) fdata data -> rect data len_x -> data <> [] ->
  (forall y x, (y < length data)%nat -> (x < len_x)%nat -> 4 * weight_total (window2 data (sy / 2) (sx / 2) y x) <= 2 ^ 53) ->
  Rres (Forall2 (Forall2 (Ropt (Ra2 m)))) (fmwm_2D fdata len_x sy sx m) (mwm_2D data len_x sy sx m).
Proof.
  intros e m fdata data len_x sy sx He H Hr Hne HT. apply res_map_sim. intros x Hx. apply in_seq in Hx.
  unfold fmwm_2D_col, mwm_2D_col. set (up := (x - sx / 2)%nat). set (lo := Nat.min (x + sx / 2 + 1) len_x).
  assert (Hsl : forall row, In row data -> lslice up lo row = lslice (x - sx / 2) (x + sx / 2 + 1) row).
  { intros row Hin. unfold rect in Hr. rewrite Forall_forall in Hr. specialize (Hr row Hin).
    subst lo up. rewrite <- Hr. apply lslice_clip. }
  assert (Hwin : forall y, window_rows (map (lslice up lo) data) (sy / 2) y = window2 data (sy / 2) (sx / 2) y x).
  { intro y. unfold window_rows, window2. rewrite lslice_map. f_equal. apply map_ext_in.
    intros row Hin. apply Hsl. eapply in_lslice; eauto. }
  apply (rows_sim e); auto.
  - clear - H. induction H as [|r r' a a' Hr H IH]; cbn [map]; constructor; auto. now apply lslice_sim.
  - apply Forall_forall. intros r Hin. apply in_map_iff in Hin as (row & <- & Hin).
    rewrite length_lslice. unfold rect in Hr. rewrite Forall_forall in Hr. rewrite (Hr row Hin). subst lo up. lia.
  - destruct data; [congruence|discriminate].
  - intros i Hi. rewrite map_length in Hi. rewrite Hwin. apply HT; lia.
Qed.
Lemma moving_2d_sim : forall e m fdata data len_x sy sx, -1073 <= e <= 900 -> Forall2 (Rows e m) fdata data -> rect data len_x -> data <> [] ->
  (0 < len_x)%nat ->
  (forall y x, (y < length data)%nat -> (x < len_x)%nat -> 4 * weight_total (window2 data (sy / 2) (sx / 2) y x) <= 2 ^ 53) ->
  Rres (Forall2 (Forall2 (Ropt (Ra2 m)))) (fmoving_2d fdata len_x sy sx m) (moving_2d data len_x sy sx m).
Proof.
  intros e m fdata data len_x sy sx He H Hr Hne Hx0 HT. unfold fmoving_2d, moving_2d.
  destruct (_ || _); [reflexivity|]. assert (El : length fdata = length data) by (eapply forall2_length; exact H). rewrite El.
  destruct (sy <? sx)%nat.
  - apply (mwm_2D_sim e); auto.
    + apply (transpose_sim _ _ (Rm e (Bsmall m))); [apply Rm_dummy, Bsmall_0|exact H].
    + apply rect_transpose.
    + intro H0. apply (f_equal (@length _)) in H0. rewrite length_transpose in H0. cbn in H0. lia.
    + intros y x Hy Hx. rewrite length_transpose in Hy. unfold weight_total.
      rewrite (sum_weights_perm _ _ _ (window2_transpose data len_x (sy / 2) (sx / 2) x y Hr)). now apply HT.
  - pose proof (mwm_2D_sim e m fdata data len_x sy sx He H Hr Hne HT) as P.
    destruct (fmwm_2D _ _ _ _ _), (mwm_2D _ _ _ _ _); cbn [Rres rbind] in *; try contradiction; [|exact P].
    apply transpose_sim; [exact Logic.I|exact P].
Qed.
Lemma nth_map_sim : forall A B C (R : A -> B -> Prop) (f : A -> C) l l', Forall2 R l l' -> forall i c, nth_error (map f l) i = Some c ->
  exists a b, c = f a /\ nth_error l' i = Some b /\ R a b.
Proof.
  intros A B C R f l l' H. induction H as [|a b l l' Hab H IH]; intros [|i] c E0; cbn in E0; try discriminate.
  - injection E0 as <-. exists a, b. auto.
  - now apply IH.
Qed.
Theorem median_2d_exact : forall e fdata data len_x sy sx m, -1073 <= e <= 900 -> Forall2 (Row (Multiple e)) fdata data ->
  (m = MSplit -> Forall small_values data) -> data <> [] -> (0 < len_x)%nat -> rect data len_x -> Nat.odd sy = true -> Nat.odd sx = true ->
  (forall y x, (y < length data)%nat -> (x < len_x)%nat -> weight_total (window2 data (sy / 2) (sx / 2) y x) <= 2 ^ 51) ->
  (m = MSplit \/ forall y x, (y < length data)%nat -> (x < len_x)%nat -> ~ window_tie (weighty (window2 data (sy / 2) (sx / 2) y x))) ->
  exists rows, fmedian_2d fdata len_x sy sx m = Ok rows /\ length rows = length data /\
    forall y row, nth_error rows y = Some row -> length row = len_x /\
      forall x v, nth_error row x = Some v -> fcell_ok false m (window2 data (sy / 2) (sx / 2) y x) v.
Proof.
  intros e fdata data len_x sy sx m He Hr0 Hs Hne Hx0 Hr Hoy Hox HT Htie.
  assert (H : Forall2 (Rows e m) fdata data).
  { clear - Hr0 Hs. induction Hr0 as [|fl l fd d Hl H IH]; constructor.
    - apply rows_of; [exact Hl|]. intro Em. specialize (Hs Em). now inversion Hs.
    - apply IH. intro Em. specialize (Hs Em). now inversion Hs. }
  assert (Hn : Forall nonneg data).
  { clear - H. induction H as [|? ? ? ? H1 H IH]; constructor; auto. eapply rows_nonneg; exact H1. }
  destruct (moving_2d_ok data len_x sy sx m Hne Hx0 Hr Hn Hoy Hox Htie) as (rows & E1 & E2 & E3).
  pose proof (moving_2d_sim e m fdata data len_x sy sx He H Hr Hne Hx0) as S0. rewrite E1 in S0.
  specialize (S0 (fun y x Hy Hx => ltac:(specialize (HT y x Hy Hx); lia))).
  unfold fmedian_2d. destruct (fmoving_2d fdata len_x sy sx m) as [fr|x]; [|contradiction]. cbn [rbind Rres] in *.
  eexists. split; [reflexivity|]. split; [rewrite map_length, <- E2; eapply forall2_length; exact S0|].
  intros y row Hy. destruct (nth_map_sim _ _ _ _ _ _ _ S0 y row Hy) as (fa & b & -> & Hb & Rab).
  destruct (E3 y b Hb) as [L1 O1]. split; [rewrite map_length, <- L1; eapply forall2_length; exact Rab|].
  intros x v Hv. destruct (cells_sim m fa b Rab x v Hv) as (fv & v' & -> & Hv' & Rv). apply (cell_sim _ _ _ _ v'); auto.
Qed.
