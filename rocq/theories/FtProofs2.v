(** Proofs about the moving weighted median with doubles: exact sums. *)
From Coq Require Import List ZArith Reals Bool Arith Permutation Lia Lra.
From Flocq Require Import Core.Zaux Core.Raux IEEE754.Binary IEEE754.Bits.
From Verif Require Import PyBase MedModel MedSpec MedProofs MedProofs2 MedProofs3 TruncModel TruncSpec TruncProofs BtModel BtSpec BtProofs BtProofs2 BtProofs3 InvModel InvProofs TfModel TfProofs GqModel GqSpec GqProofs GqProofs2 GqProofs3 FtModel FtProofs.
Import ListNotations.
Open Scope Z_scope.

Lemma eq64_units : forall a u b v, Units a u -> Units b v -> eq64 a b = (u =? v).
Proof.
  intros a u b v Ha Hb. destruct (units_double _ _ Ha) as [Wa Va]. destruct (units_double _ _ Hb) as [Wb Vb].
  rewrite (eq64_value a b _ _ Wa Wb Va Vb). pose proof (pow2_R_pos 1074) as P.
  assert (P' : (0 < / 2 ^ 1074)%R) by (apply Rinv_0_lt_compat; exact P). unfold Rdiv. generalize dependent (/ 2 ^ 1074)%R. intros r Hr.
  destruct (Z.eqb_spec u v) as [->|H]; [now apply Req_bool_true|].
  apply Req_bool_false. intro K. apply H. apply eq_IZR. apply Rmult_eq_reg_r with r; [exact K|lra].
Qed.
Lemma two64_value : Word 64 two64 /\ IsDouble two64 2.
Proof.
  assert (W : Word 64 two64) by (split; vm_compute; congruence). split; [exact W|].
  exists (2 ^ 1075). split; [vm_compute; reflexivity|].
  change (2 ^ 1075) with (2 * 2 ^ Z.of_nat 1074). rewrite mult_IZR, <- pow2_R.
  pose proof (pow2_R_pos 1074) as P. set (p := (2 ^ 1074)%R) in *. clearbody p. field. lra.
Qed.

Section Exact.
Context (e : Z) (He : -1073 <= e <= 900) (Bd : Z -> Prop) (Bd0 : Bd 0).
Definition Rm (x : fdatum) (d : datum) : Prop := (Units (fst x) (fst d) /\ Bd (fst d)) /\ Multiple e (snd x) (snd d).
Definition RS (s z : Z) : Prop := 0 <= z /\ (z <= 2 ^ 53 -> Multiple e s z).

Lemma Rm_lt : forall x x' y y', Rm x x' -> Rm y y' -> fdlt x y = dlt x' y'.
Proof.
  intros x x' y y' [[U1 _] M1] [[U2 _] M2]. unfold fdlt, dlt.
  rewrite (eq64_units _ _ _ _ U1 U2), (lt64_units _ _ _ _ U1 U2).
  now rewrite (proj2 (proj2 (compare_multiples e _ _ _ _ M1 M2))).
Qed.
Lemma Rm_eq : forall x x' y y', Rm x x' -> Rm y y' -> fdeq x y = deq x' y'.
Proof.
  intros x x' y y' [[U1 _] M1] [[U2 _] M2]. unfold fdeq, deq. rewrite (eq64_units _ _ _ _ U1 U2).
  now rewrite (proj1 (compare_multiples e _ _ _ _ M1 M2)).
Qed.
Lemma Rm_w : forall x x', Rm x x' -> RS (snd x) (snd x').
Proof. intros x x' [_ M]. split; [apply M|auto]. Qed.
Lemma RS_0 : RS 0 0.
Proof. split; [lia|]. intros _. apply zero_multiple. Qed.
Lemma RS_add : forall a x b y, RS a x -> RS b y -> RS (add64 a b) (x + y).
Proof.
  intros a x b y [P H] [P' H']. split; [lia|]. intro L. apply add_multiples; [exact He| | |exact L].
  - apply H. lia.
  - apply H'. lia.
Qed.
Lemma Rm_zero : forall x x', Rm x x' -> eq64 (snd x) 0 = (snd x' =? 0).
Proof. intros x x' [_ M]. exact (proj1 (compare_multiples e _ _ _ _ M (zero_multiple e))). Qed.
Lemma Rm_dummy : Rm (0, 0) (0, 0).
Proof. split; [|apply zero_multiple]. split; [|exact Bd0]. split; [split; vm_compute; congruence|vm_compute; reflexivity]. Qed.

(** *** Comparison with the midpoint *)
Context (T fmid : Z) (HT : 4 * T <= 2 ^ 53) (HT0 : 0 <= T) (Hmid : Multiple (e - 1) fmid T).
Lemma mid_of_total : forall s, RS s T -> Multiple (e - 1) (div64 s two64) T.
Proof.
  intros s [_ H]. destruct (H ltac:(lia)) as (W & P & V). destruct two64_value as [W2 V2].
  split; [apply w64_f64|]. split; [lia|].
  assert (E : (IZR T * bpow radix2 e / 2 = IZR T * bpow radix2 (e - 1))%R).
  { replace e with (1 + (e - 1)) at 1 by ring. rewrite bpow_plus. change (bpow radix2 1) with 2%R. field. }
  rewrite <- (multiple_format T (e - 1)) by lia. rewrite <- E. apply div64_quot; auto. rewrite E. apply multiple_small.
  all: lia.
Qed.
Lemma RS_mid : forall s z, RS s z -> z <= 2 ^ 53 -> Multiple (e - 1) s (2 * z).
Proof. intros s z [P H] L. destruct (H L) as (W & Pz & V). split; [exact W|]. split; [lia|]. now rewrite half_multiple. Qed.
Lemma gt_mid : forall s z, RS s z -> z <= 2 ^ 53 -> lt64 fmid s = (2 * z >? T).
Proof.
  intros s z H L. rewrite (proj2 (proj2 (compare_multiples _ _ _ _ _ Hmid (RS_mid s z H L)))). rewrite Z.gtb_ltb. reflexivity.
Qed.
Lemma le_mid : forall s z, RS s z -> z <= 2 ^ 53 -> le64 s fmid = (2 * z <=? T).
Proof. intros s z H L. now rewrite (proj1 (proj2 (compare_multiples _ _ _ _ _ (RS_mid s z H L) Hmid))). Qed.

Notation RTm := (RT Rm RS).
Fixpoint caps (t : tree) : Prop :=
  match t with
  | E => True
  | N l d r _ _ lw rw => caps l /\ caps r /\ 0 <= lw <= T /\ 0 <= rw <= T /\ 0 <= snd d <= T
  end.
Lemma avl_caps : forall t, avl t -> nonneg (inorder t) -> weight_total (inorder t) <= T -> caps t.
Proof.
  induction t as [|l IHl d r IHr a b c f]; intros H Hn Ht; cbn [caps]; [exact Logic.I|].
  cbn [avl] in H. destruct H as (Al & Ar & _ & _ & -> & -> & _). cbn [inorder] in Hn, Ht.
  apply Forall_app in Hn as [N1 N2]. inversion N2 as [|? ? Nd N3]; subst.
  rewrite weight_total_app, weight_total_cons in Ht.
  pose proof (sum_weights_bounds (fun _ => true) _ N1) as B1. fold (weight_total (inorder l)) in B1.
  pose proof (sum_weights_bounds (fun _ => true) _ N3) as B2. fold (weight_total (inorder r)) in B2.
  repeat split; auto; try lia; [apply IHl|apply IHr]; auto; lia.
Qed.
Definition Rpath (fp : fpath) (p : path) : Prop :=
  Forall2 (fun a b => fst a = fst b /\ RTm (snd a) (snd b) /\ caps (snd b)) fp p.

Lemma descend_sim : forall ft t, RTm ft t -> forall fp p fprev prev fnext next, Rpath fp p -> RS fprev prev -> RS fnext next ->
  avl t -> nonneg (inorder t) -> prev + weight_total (inorder t) + next <= T ->
  Ropt (fun a b => let '(ft', fp', fprev', fnext') := a in let '(t', p', prev', next') := b in
    RTm ft' t' /\ caps t' /\ Rpath fp' p' /\ RS fprev' prev' /\ RS fnext' next' /\ prev' <= T /\ next' <= T)
    (fdescend ft fp fprev fnext fmid) (descend t p prev next T).
Proof.
  intros ft t H. induction H as [|fl l fd d fr r lh rh flw lw frw rw Hl IHl Hd Hr IHr Hlw Hrw];
    intros fp p fprev prev fnext next Hp Hprev Hnext Ha Hn Ht; cbn [fdescend descend]; [exact Logic.I|].
  assert (C : caps (N l d r lh rh lw rw)).
  { apply avl_caps; auto. pose proof (proj1 Hprev). pose proof (proj1 Hnext). lia. }
  assert (RN : RTm (FN fl fd fr lh rh flw frw) (N l d r lh rh lw rw)) by (constructor; auto).
  pose proof (proj1 Hprev) as P1. pose proof (proj1 Hnext) as P2.
  cbn [avl] in Ha. destruct Ha as (Al & Ar & _ & _ & El & Er & _). cbn [inorder] in Hn, Ht.
  apply Forall_app in Hn as [N1 N2]. inversion N2 as [|? ? Nd N3]; subst.
  rewrite weight_total_app, weight_total_cons in Ht.
  pose proof (sum_weights_bounds (fun _ => true) _ N1) as B1. fold (weight_total (inorder l)) in B1.
  pose proof (sum_weights_bounds (fun _ => true) _ N3) as B2. fold (weight_total (inorder r)) in B2.
  rewrite (gt_mid _ _ (RS_add _ _ _ _ Hlw Hprev)) by lia.
  rewrite (gt_mid _ _ (RS_add _ _ _ _ Hrw Hnext)) by lia.
  destruct (_ >? T).
  - apply IHl; auto; [constructor; auto| |lia]. apply RS_add; [exact Hnext|]. apply RS_add; [exact Hrw|now apply Rm_w].
  - destruct (_ >? T).
    + apply IHr; auto; [constructor; auto| |lia]. apply RS_add; [exact Hprev|]. apply RS_add; [exact Hlw|now apply Rm_w].
    + cbn [Ropt]. repeat (split; [assumption|]). lia.
Qed.

Definition Rnode (a : ftree * fpath) (b : tree * path) : Prop :=
  RTm (fst a) (fst b) /\ caps (fst b) /\ Rpath (snd a) (snd b).
Lemma find_min_sim : forall ft t, RTm ft t -> caps t -> forall fp p, Rpath fp p -> Rnode (ffind_min ft fp) (find_min t p).
Proof.
  intros ft t H. induction H as [|fl l fd d fr r lh rh flw lw frw rw Hl IHl Hd Hr IHr Hlw Hrw]; intros C fp p Hp; cbn [ffind_min find_min].
  - split; [constructor|]. split; [exact Logic.I|exact Hp].
  - assert (RN : RTm (FN fl fd fr lh rh flw frw) (N l d r lh rh lw rw)) by (constructor; auto).
    destruct Hl; [split; [exact RN|split; [exact C|exact Hp]]|].
    apply IHl; [apply C|]. constructor; auto.
Qed.
Lemma find_max_sim : forall ft t, RTm ft t -> caps t -> forall fp p, Rpath fp p -> Rnode (ffind_max ft fp) (find_max t p).
Proof.
  intros ft t H. induction H as [|fl l fd d fr r lh rh flw lw frw rw Hl IHl Hd Hr IHr Hlw Hrw]; intros C fp p Hp; cbn [ffind_max find_max].
  - split; [constructor|]. split; [exact Logic.I|exact Hp].
  - assert (RN : RTm (FN fl fd fr lh rh flw frw) (N l d r lh rh lw rw)) by (constructor; auto).
    destruct Hr; [split; [exact RN|split; [exact C|exact Hp]]|].
    apply IHr; [apply C|]. constructor; auto.
Qed.
Lemma up_while_sim : forall side fp p, Rpath fp p -> Ropt Rnode (fup_while side fp) (up_while side p).
Proof.
  intros side fp p H. induction H as [|[s ft] [s' t] fp p (E0 & R0 & C0) H IH]; [exact Logic.I|]. cbn [fst snd] in *. subst s'.
  cbn [fup_while up_while]. destruct (Bool.eqb s side); [exact IH|]. repeat split; auto.
Qed.
Lemma successor_sim : forall ft t fp p, RTm ft t -> caps t -> Rpath fp p -> Ropt Rnode (fsuccessor ft fp) (successor t p).
Proof.
  intros ft t fp p H C Hp. pose proof H as H0. destruct H as [|fl l fd d fr r lh rh flw lw frw rw Hl Hd Hr Hlw Hrw]; [exact Logic.I|].
  cbn [fsuccessor successor]. pose proof Hr as Hr0. destruct Hr; [now apply up_while_sim|].
  apply find_min_sim; [exact Hr0|apply C|]. constructor; auto.
Qed.
Lemma predecessor_sim : forall ft t fp p, RTm ft t -> caps t -> Rpath fp p -> Ropt Rnode (fpredecessor ft fp) (predecessor t p).
Proof.
  intros ft t fp p H C Hp. pose proof H as H0. destruct H as [|fl l fd d fr r lh rh flw lw frw rw Hl Hd Hr Hlw Hrw]; [exact Logic.I|].
  cbn [fpredecessor predecessor]. pose proof Hl as Hl0. destruct Hl; [now apply up_while_sim|].
  apply find_max_sim; [exact Hl0|apply C|]. constructor; auto.
Qed.
Lemma zero_units' : Units 0 0 /\ Bd 0.
Proof. split; [|exact Bd0]. split; [split; vm_compute; congruence|vm_compute; reflexivity]. Qed.
Lemma value_sim : forall ft t, RTm ft t -> Units (fnode_value ft) (node_value t) /\ Bd (node_value t).
Proof. intros ft t H. destruct H as [|fl l fd d fr r lh rh flw lw frw rw Hl Hd Hr Hlw Hrw]; [apply zero_units'|apply Hd]. Qed.
Lemma node_weight_sim : forall ft t, RTm ft t -> RS (fnode_weight ft) (node_weight t).
Proof. intros ft t H. destruct H; [apply RS_0|now apply Rm_w]. Qed.
Lemma left_weight_sim : forall ft t, RTm ft t -> RS (fleft_weight ft) (left_weight t).
Proof. intros ft t H. destruct H; [apply RS_0|assumption]. Qed.
Lemma right_weight_sim : forall ft t, RTm ft t -> RS (fright_weight ft) (right_weight t).
Proof. intros ft t H. destruct H; [apply RS_0|assumption]. Qed.
Lemma caps_node : forall t, caps t -> 0 <= left_weight t <= T /\ 0 <= right_weight t <= T /\ 0 <= node_weight t <= T.
Proof. destruct t; cbn; [lia|tauto]. Qed.

(** The values of an answer: their sum and their number *)
Definition Ra (fa : list Z) (a : Z * Z) : Prop :=
  exists us, Forall2 (fun x u => Units x u /\ Bd u) fa us /\ a = (fold_right Z.add 0 us, Z.of_nat (length us)).
Lemma Ra_one : forall x v, Units x v /\ Bd v -> Ra [x] (v, 1).
Proof. intros x v H. exists [v]. split; [constructor; auto|]. cbn. f_equal. lia. Qed.
Lemma Ra_snoc : forall fa a x v, Ra fa a -> Units x v /\ Bd v -> Ra (fa ++ [x]) (fst a + v, snd a + 1).
Proof.
  intros fa a x v (us & H & ->) Hx. exists (us ++ [v]). split; [apply Forall2_app; auto|].
  cbn [fst snd]. rewrite app_length. cbn [length]. f_equal; [|lia].
  clear. induction us as [|u us IH]; cbn [app fold_right]; lia.
Qed.

Lemma split_down_sim : forall fuel ft t fp p fnext next facc acc, RTm ft t -> caps t -> Rpath fp p -> RS fnext next -> next <= T ->
  Ra facc acc -> Ra (fsplit_down fuel ft fp fnext fmid facc) (split_down fuel t p next T acc).
Proof.
  induction fuel as [|fuel IH]; intros ft t fp p fnext next facc acc Ht C Hp Hx Hb Hacc; [exact Hacc|].
  cbn [fsplit_down split_down]. pose proof (caps_node _ C) as (B1 & B2 & B3).
  pose proof (node_weight_sim _ _ Ht) as W. pose proof (right_weight_sim _ _ Ht) as R.
  rewrite (le_mid _ _ (RS_add _ _ _ _ (RS_add _ _ _ _ R Hx) W)) by lia.
  destruct (Z.leb_spec (2 * (right_weight t + next + node_weight t)) T) as [L|L]; [|exact Hacc].
  pose proof (predecessor_sim _ _ _ _ Ht C Hp) as P.
  destruct (fpredecessor ft fp) as [[ft' fp']|], (predecessor t p) as [[t' p']|]; try contradiction; [|exact Hacc].
  destruct P as (P1 & P2 & P3). cbn [fst snd] in *. apply IH; auto.
  - apply RS_add; [exact Hx|]. now apply RS_add.
  - lia.
  - apply Ra_snoc; auto. now apply value_sim.
Qed.
Lemma split_up_sim : forall fuel ft t fp p fprev prev facc acc, RTm ft t -> caps t -> Rpath fp p -> RS fprev prev -> prev <= T ->
  Ra facc acc -> Ra (fsplit_up fuel ft fp fprev fmid facc) (split_up fuel t p prev T acc).
Proof.
  induction fuel as [|fuel IH]; intros ft t fp p fprev prev facc acc Ht C Hp Hx Hb Hacc; [exact Hacc|].
  cbn [fsplit_up split_up]. pose proof (caps_node _ C) as (B1 & B2 & B3).
  pose proof (node_weight_sim _ _ Ht) as W. pose proof (left_weight_sim _ _ Ht) as R.
  rewrite (le_mid _ _ (RS_add _ _ _ _ (RS_add _ _ _ _ R Hx) W)) by lia.
  destruct (Z.leb_spec (2 * (left_weight t + prev + node_weight t)) T) as [L|L]; [|exact Hacc].
  pose proof (successor_sim _ _ _ _ Ht C Hp) as P.
  destruct (fsuccessor ft fp) as [[ft' fp']|], (successor t p) as [[t' p']|]; try contradiction; [|exact Hacc].
  destruct P as (P1 & P2 & P3). cbn [fst snd] in *. apply IH; auto.
  - apply RS_add; [exact Hx|]. now apply RS_add.
  - lia.
  - apply Ra_snoc; auto. now apply value_sim.
Qed.
Lemma go_higher_sim : forall ft t, RTm ft t -> caps t -> forall fprev prev fnext next, RS fprev prev -> RS fnext next -> prev <= T -> next <= T ->
  Units (fgo_higher ft fprev fnext fmid) (go_higher t prev next T) /\ Bd (go_higher t prev next T).
Proof.
  intros ft t H. induction H as [|fl l fd d fr r lh rh flw lw frw rw Hl IHl Hd Hr IHr Hlw Hrw];
    intros C fprev prev fnext next H1 H2 B1 B2; cbn [fgo_higher go_higher]; [apply zero_units'|].
  cbn [caps] in C. destruct C as (Cl & Cr & C1 & C2 & C3).
  rewrite (le_mid _ _ (RS_add _ _ _ _ Hrw H2)) by lia.
  rewrite (le_mid _ _ (RS_add _ _ _ _ (RS_add _ _ _ _ Hlw H1) (Rm_w _ _ Hd))) by lia.
  destruct (_ && _); [|apply Hd]. destruct Hr; [apply Hd|]. now apply IHr.
Qed.
Lemma go_lower_sim : forall ft t, RTm ft t -> caps t -> forall fprev prev fnext next, RS fprev prev -> RS fnext next -> prev <= T -> next <= T ->
  Units (fgo_lower ft fprev fnext fmid) (go_lower t prev next T) /\ Bd (go_lower t prev next T).
Proof.
  intros ft t H. induction H as [|fl l fd d fr r lh rh flw lw frw rw Hl IHl Hd Hr IHr Hlw Hrw];
    intros C fprev prev fnext next H1 H2 B1 B2; cbn [fgo_lower go_lower]; [apply zero_units'|].
  cbn [caps] in C. destruct C as (Cl & Cr & C1 & C2 & C3).
  rewrite (le_mid _ _ (RS_add _ _ _ _ Hlw H1)) by lia.
  rewrite (le_mid _ _ (RS_add _ _ _ _ (RS_add _ _ _ _ Hrw H2) (Rm_w _ _ Hd))) by lia.
  destruct (_ && _); [|apply Hd]. destruct Hl; [apply Hd|]. now apply IHl.
Qed.
End Exact.

Lemma nodes_sim : forall Rd Rc ft t, RT Rd Rc ft t -> ftree_nodes ft = tree_nodes t.
Proof. intros Rd Rc ft t H. induction H; cbn; congruence. Qed.

Lemma median_sim : forall e (Bd : Z -> Prop) ft t m, -1073 <= e <= 900 -> Bd 0 -> RT (Rm e Bd) (RS e) ft t -> avl t -> nonneg (inorder t) ->
  4 * weight_total (inorder t) <= 2 ^ 53 -> Rres (Ra Bd) (fweighted_median ft m) (weighted_median t m).
Proof.
  intros e Bd ft t m He B0 H Ha Hn HT. pose proof (avl_weight t Ha) as Ew.
  pose proof (weight_sim (Rm e Bd) (RS e) (Rm_w e Bd) (RS_0 e) (RS_add e He) ft t H) as Rw. rewrite Ew in Rw.
  set (T := weight_total (inorder t)) in *.
  pose proof (proj1 Rw) as T0.
  pose proof (mid_of_total e He T HT T0 (ftotal_weight ft) Rw) as M.
  pose proof (nodes_sim _ _ _ _ H) as Nd.
  pose proof (descend_sim e He Bd T (div64 (ftotal_weight ft) two64) HT M ft t H [] [] 0 0 0 0 (Forall2_nil _) (RS_0 e) (RS_0 e) Ha Hn ltac:(lia)) as D.
  unfold fweighted_median, weighted_median. rewrite Ew. fold T. rewrite Nd.
  destruct H as [|fl l fd d fr r lh rh flw lw frw rw Hl Hd Hr Hlw Hrw]; [apply (Ra_one Bd 0 0), zero_units', B0|].
  destruct (fdescend _ _ _ _ _) as [[[[fn fp] fprev] fnext]|], (descend _ _ _ _ _) as [[[[n p] prev] next]|]; try contradiction; [|reflexivity].
  destruct D as (D1 & D2 & D3 & D4 & D5 & D6 & D7). cbn [Rres]. destruct m.
  - apply (split_up_sim e He Bd B0 T _ HT T0 M); auto. apply (split_down_sim e He Bd B0 T _ HT T0 M); auto. apply Ra_one. eapply value_sim; [exact B0|exact D1].
  - apply Ra_one. apply (go_lower_sim e He Bd B0 T _ HT M); auto.
  - apply Ra_one. apply (go_higher_sim e He Bd B0 T _ HT M); auto.
Qed.
