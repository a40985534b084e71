(** Proofs about the moving weighted median with doubles: it follows the exact one. *)
From Coq Require Import List ZArith Bool Arith Permutation Lia.
From Verif Require Import PyBase MedModel MedSpec MedProofs MedProofs2 MedProofs3 BtModel InvModel TfModel GqModel FtModel.
Import ListNotations.
Open Scope Z_scope.

Definition Rres {A B} (R : A -> B -> Prop) (a : res A) (b : res B) : Prop :=
  match a, b with Ok x, Ok y => R x y | Err x, Err y => x = y | _, _ => False end.
Definition Ropt {A B} (R : A -> B -> Prop) (a : option A) (b : option B) : Prop :=
  match a, b with Some x, Some y => R x y | None, None => True | _, _ => False end.

Section Sim.
Context (Rd : fdatum -> datum -> Prop) (Rc : Z -> Z -> Prop).
Context (H_lt : forall x x' y y', Rd x x' -> Rd y y' -> fdlt x y = dlt x' y').
Context (H_eq : forall x x' y y', Rd x x' -> Rd y y' -> fdeq x y = deq x' y').
Context (H_w : forall x x', Rd x x' -> Rc (snd x) (snd x')).
Context (H_0 : Rc 0 0).
Context (H_add : forall a x b y, Rc a x -> Rc b y -> Rc (add64 a b) (x + y)).

Inductive RT : ftree -> tree -> Prop :=
| RT_E : RT FE E
| RT_N : forall fl l fd d fr r lh rh flw lw frw rw, RT fl l -> Rd fd d -> RT fr r -> Rc flw lw -> Rc frw rw ->
    RT (FN fl fd fr lh rh flw frw) (N l d r lh rh lw rw).

Lemma height_sim : forall ft t, RT ft t -> ftotal_height ft = total_height t.
Proof. intros ft t H. destruct H; reflexivity. Qed.
Lemma weight_sim : forall ft t, RT ft t -> Rc (ftotal_weight ft) (total_weight t).
Proof. intros ft t H. destruct H; cbn; auto. Qed.
Lemma update_sim : forall ft t, RT ft t -> RT (fupdate ft) (update t).
Proof.
  intros ft t H. destruct H; [constructor|]. cbn [fupdate update].
  rewrite (height_sim fl l), (height_sim fr r) by assumption. constructor; auto using weight_sim.
Qed.
Lemma rotate_R_sim : forall ft t, RT ft t -> RT (frotate_R ft) (rotate_R t).
Proof.
  intros ft t H. destruct H as [|fl l fd d fr r lh rh flw lw frw rw Hl Hd Hr Hlw Hrw]; [constructor|].
  destruct Hl as [|]; cbn [frotate_R rotate_R]; [constructor; auto; constructor|].
  apply update_sim. constructor; auto. apply update_sim. constructor; auto.
Qed.
Lemma rotate_L_sim : forall ft t, RT ft t -> RT (frotate_L ft) (rotate_L t).
Proof.
  intros ft t H. destruct H as [|fl l fd d fr r lh rh flw lw frw rw Hl Hd Hr Hlw Hrw]; [constructor|].
  destruct Hr as [|]; cbn [frotate_L rotate_L]; [constructor; auto; constructor|].
  apply update_sim. constructor; auto. apply update_sim. constructor; auto.
Qed.
Lemma left_height_sim : forall ft t, RT ft t -> fleft_height ft = left_height t.
Proof. intros ft t H. destruct H; reflexivity. Qed.
Lemma right_height_sim : forall ft t, RT ft t -> fright_height ft = right_height t.
Proof. intros ft t H. destruct H; reflexivity. Qed.
Lemma balance_sim : forall ft t, RT ft t -> RT (fbalance ft) (balance t).
Proof.
  intros ft t H. destruct H as [|fl l fd d fr r lh rh flw lw frw rw Hl Hd Hr Hlw Hrw]; [constructor|].
  cbn [fbalance balance].
  rewrite (left_height_sim _ _ Hl), (right_height_sim _ _ Hl), (left_height_sim _ _ Hr), (right_height_sim _ _ Hr).
  destruct (_ =? 2).
  - destruct (_ <=? _); apply rotate_R_sim; constructor; auto. now apply rotate_L_sim.
  - destruct (_ =? -2); [|constructor; auto].
    destruct (_ <=? _); apply rotate_L_sim; constructor; auto. now apply rotate_R_sim.
Qed.
Lemma visit_sim : forall ft t, RT ft t -> RT (fvisit ft) (visit t).
Proof. intros ft t H. unfold fvisit, visit. auto using balance_sim, update_sim. Qed.
Lemma insert_sim : forall fx x ft t, Rd fx x -> RT ft t -> RT (finsert fx ft) (insert x t).
Proof.
  intros fx x ft t Hx H. induction H as [|fl l fd d fr r lh rh flw lw frw rw Hl IHl Hd Hr IHr Hlw Hrw]; cbn [finsert insert].
  - constructor; auto; constructor.
  - rewrite (H_lt _ _ _ _ Hx Hd). destruct (dlt x d); apply visit_sim; constructor; auto.
Qed.
Lemma del_min_sim : forall ft t, RT ft t ->
  Ropt (fun a b => Rd (fst a) (fst b) /\ RT (snd a) (snd b)) (fdel_min ft) (del_min t).
Proof.
  intros ft t H. induction H as [|fl l fd d fr r lh rh flw lw frw rw Hl IHl Hd Hr IHr Hlw Hrw]; cbn [fdel_min del_min]; [exact Logic.I|].
  destruct Hl as [|fll ll fld ld flr lr lh' rh' flw' lw' frw' rw' Hll Hld Hlr Hlw' Hrw']; [split; assumption|].
  destruct (fdel_min _) as [[fm fl']|], (del_min _) as [[m l']|]; try contradiction; [|exact Logic.I].
  destruct IHl as [A B]. split; [exact A|]. apply visit_sim. constructor; auto.
Qed.
Lemma remove_root_sim : forall ft t, RT ft t -> RT (fremove_root ft) (remove_root t).
Proof.
  intros ft t H. destruct H as [|fl l fd d fr r lh rh flw lw frw rw Hl Hd Hr Hlw Hrw]; [constructor|].
  pose proof (del_min_sim _ _ Hr) as M. unfold fremove_root, remove_root.
  inversion Hl; subst; [exact Hr|]. inversion Hr; subst; [exact Hl|].
  destruct (fdel_min _) as [[fm fr']|], (del_min _) as [[m r']|]; try contradiction.
  - destruct M as [A B]. apply visit_sim. constructor; auto.
  - constructor; auto.
Qed.
Lemma remove_sim : forall fx x ft t, Rd fx x -> RT ft t -> Ropt RT (fremove fx ft) (remove x t).
Proof.
  intros fx x ft t Hx H. induction H as [|fl l fd d fr r lh rh flw lw frw rw Hl IHl Hd Hr IHr Hlw Hrw]; cbn [fremove remove]; [exact Logic.I|].
  rewrite (H_eq _ _ _ _ Hd Hx), (H_lt _ _ _ _ Hx Hd). destruct (deq d x).
  - change (RT (fremove_root (FN fl fd fr lh rh flw frw)) (remove_root (N l d r lh rh lw rw))). apply remove_root_sim. constructor; auto.
  - destruct (dlt x d).
    + destruct (fremove fx fl), (remove x l); try contradiction; [|exact Logic.I]. apply visit_sim. constructor; auto.
    + destruct (fremove fx fr), (remove x r); try contradiction; [|exact Logic.I]. apply visit_sim. constructor; auto.
Qed.

(** *** The window *)
Context (H_zero : forall x x', Rd x x' -> eq64 (snd x) 0 = (snd x' =? 0)).
Context (H_dummy : Rd (0, 0) (0, 0)).

Definition Rst (fs : ftree * list fdatum) (st : tree * list datum) : Prop :=
  RT (fst fs) (fst st) /\ Forall2 Rd (snd fs) (snd st).
Lemma start_sim : Rst (FE, []) (E, []).
Proof. split; constructor. Qed.
Lemma enter_sim : forall fx x fs st, Rd fx x -> Rst fs st -> Rst (fenter fx fs) (enter x st).
Proof.
  intros fx x [ft ff] [t fi] Hx [H1 H2]. unfold fenter, enter. rewrite (H_zero _ _ Hx).
  destruct (_ =? 0); split; cbn [fst snd] in *; auto using insert_sim; apply Forall2_app; auto.
Qed.
Lemma enter_all_sim : forall fxs xs, Forall2 Rd fxs xs -> forall fs st, Rst fs st -> Rst (fenter_all fxs fs) (enter_all xs st).
Proof.
  intros fxs xs H. induction H as [|fx x fxs xs Hx H IH]; intros fs st Hs; [exact Hs|].
  cbn [fenter_all enter_all fold_left]. apply IH. now apply enter_sim.
Qed.
Lemma leave_sim : forall fs st, Rst fs st -> Rres Rst (fleave fs) (leave st).
Proof.
  intros [ft ff] [t fi] [H1 H2]. cbn [fst snd] in *. unfold fleave, leave. destruct H2 as [|fx x ff fi Hx H2]; [reflexivity|].
  rewrite (H_zero _ _ Hx). destruct (_ =? 0); [split; assumption|].
  pose proof (remove_sim _ _ _ _ Hx H1) as R. destruct (fremove fx ft), (remove x t); try contradiction; [|reflexivity].
  split; assumption.
Qed.
Lemma leave_n_sim : forall k fs st, Rst fs st -> Rres Rst (fleave_n k fs) (leave_n k st).
Proof.
  induction k as [|k IH]; intros fs st H; [exact H|]. cbn [fleave_n leave_n].
  pose proof (leave_sim _ _ H) as L. destruct (fleave fs), (leave st); cbn [rbind] in *; try contradiction; [now apply IH|exact L].
Qed.

(** The loop, for any relation of answers that holds of the trees of the windows *)
Section Loop.
Context (Ra : list Z -> Z * Z -> Prop) (m : method).
Context (frows : list (list fdatum)) (rows : list (list datum)) (half width : nat).
Context (Hrows : Forall2 (Forall2 Rd) frows rows).
Context (Hw : Forall (fun r => length r = width) rows).
Context (H_med : forall i ft t, RT ft t -> (i < length rows)%nat -> avl t -> ordered (inorder t) ->
  Permutation (inorder t) (weighty (window_rows rows half i)) -> Rres Ra (fweighted_median ft m) (weighted_median t m)).

Lemma report_sim : forall nan i fs st, Rst fs st -> (i < length rows)%nat -> inv st (window_rows rows half i) ->
  Rres (Ropt Ra) (freport nan (fst fs) m) (report nan (fst st) m).
Proof.
  intros nan i [ft ff] [t fi] [H1 H2] Hi (I1 & I2 & I3 & I4). cbn [fst snd] in *.
  pose proof (H_med i ft t H1 Hi I2 I3 I4) as M. unfold freport, report, median_or_nan.
  assert (K : Rres (Ropt Ra) (rbind (fweighted_median ft m) (fun v => Ok (Some v))) (rbind (weighted_median t m) (fun v => Ok (Some v)))).
  { destruct (fweighted_median ft m), (weighted_median t m); cbn [rbind Rres Ropt] in *; try contradiction; exact M. }
  destruct nan; [|destruct H1; exact K]. destruct H1; [exact Logic.I|exact K].
Qed.
Lemma nth_rows : forall k, Ropt (Forall2 Rd) (nth_error frows k) (nth_error rows k).
Proof.
  clear H_med Hw. induction Hrows as [|a b frs rs Hab H IH]; intros [|k]; cbn; auto.
Qed.
Lemma loop_sim : forall nan todo i fs st, Rst fs st -> (1 <= i)%nat -> (i + todo = length rows)%nat ->
  inv st (window_rows rows half (i - 1)) ->
  Rres (Forall2 (Ropt Ra)) (fmwm_loop frows half width nan m todo i fs) (mwm_loop rows half width nan m todo i st).
Proof.
  intro nan. induction todo as [|todo IH]; intros i fs st Hs Hi Hn Hst; cbn [fmwm_loop mwm_loop]; [constructor|].
  assert (Hmid : exists fs1 st1, (if (half + 1 <=? i)%nat then fleave_n width fs else Ok fs) = Ok fs1 /\
    (if (half + 1 <=? i)%nat then leave_n width st else Ok st) = Ok st1 /\ Rst fs1 st1 /\
    inv st1 (concat (lslice (i - half) (i + half) rows))).
  { unfold window_rows in Hst. replace (i - 1 + half + 1)%nat with (i + half)%nat in Hst by lia.
    destruct (Nat.leb_spec (half + 1) i) as [Hc|Hc].
    - destruct (lslice_cons _ rows (i - 1 - half) (i + half)) as (r & R1 & R2); [lia|lia|].
      rewrite R2 in Hst. cbn [concat] in Hst.
      assert (Hr : length r = width).
      { rewrite Forall_forall in Hw. apply Hw. eapply nth_error_In; eauto. }
      replace (i - 1 - half + 1)%nat with (i - half)%nat in Hst by lia.
      destruct (leave_n_inv _ _ _ Hst) as (st' & E1 & E2). rewrite Hr in E1.
      pose proof (leave_n_sim width _ _ Hs) as L. rewrite E1 in L. destruct (fleave_n width fs) as [fs1|]; [|contradiction].
      exists fs1, st'. auto.
    - exists fs, st. replace (i - 1 - half)%nat with (i - half)%nat in Hst by lia. auto. }
  destruct Hmid as (fs1 & st1 & F1 & E1 & S1 & I1). rewrite F1, E1. cbn [rbind].
  set (st2 := match nth_error rows (i + half) with Some xs => enter_all xs st1 | None => st1 end).
  set (fs2 := match nth_error frows (i + half) with Some xs => fenter_all xs fs1 | None => fs1 end).
  assert (I2 : inv st2 (window_rows rows half i)).
  { unfold window_rows. rewrite lslice_snoc by lia. rewrite concat_app.
    subst st2. destruct (nth_error rows (i + half)) as [xs|]; cbn [concat].
    - rewrite app_nil_r. now apply enter_all_inv.
    - rewrite app_nil_r. exact I1. }
  assert (S2 : Rst fs2 st2).
  { subst st2 fs2. pose proof (nth_rows (i + half)) as K. destruct (nth_error frows _), (nth_error rows _); try contradiction; auto.
    now apply enter_all_sim. }
  pose proof (report_sim nan i fs2 st2 S2 ltac:(lia) I2) as P.
  destruct (freport nan (fst fs2) m), (report nan (fst st2) m); cbn [rbind Rres] in *; try contradiction; [|exact P].
  pose proof (IH (S i) fs2 st2 S2 ltac:(lia) ltac:(lia)) as Q. replace (S i - 1)%nat with i in Q by lia. specialize (Q I2).
  destruct (fmwm_loop _ _ _ _ _ _ _ _), (mwm_loop _ _ _ _ _ _ _ _); cbn [rbind Rres] in *; try contradiction; [|exact Q].
  now constructor.
Qed.
Lemma firstn_rows : forall k, Forall2 Rd (concat (firstn k frows)) (concat (firstn k rows)).
Proof.
  clear H_med Hw. induction Hrows as [|a b frs rs Hab H IH]; intros [|k]; cbn; try constructor. apply Forall2_app; auto.
Qed.
Lemma mwm_rows_sim : forall nan, rows <> [] ->
  Rres (Forall2 (Ropt Ra)) (fmwm_rows frows half width nan m) (mwm_rows rows half width nan m).
Proof.
  intros nan Hne. unfold fmwm_rows, mwm_rows.
  assert (Hlen : (0 < length rows)%nat) by (destruct rows; [congruence|cbn; lia]).
  assert (I0 : inv (enter_all (concat (firstn (half + 1) rows)) (E, [])) (window_rows rows half 0)).
  { unfold window_rows, lslice. cbn [Nat.sub skipn]. rewrite Nat.sub_0_r.
    apply (enter_all_inv _ (E, []) []), inv_empty. }
  pose proof (enter_all_sim _ _ (firstn_rows (half + 1)) _ _ start_sim) as S0.
  pose proof (report_sim false 0 _ _ S0 Hlen I0) as P.
  destruct (freport _ _ _), (report _ _ _); cbn [rbind Rres] in *; try contradiction; [|exact P].
  assert (Hl : length frows = length rows) by (clear - Hrows; induction Hrows as [|? ? ? ? ? ? IH]; cbn; [reflexivity|now rewrite IH]).
  rewrite Hl.
  pose proof (loop_sim nan (length rows - 1) 1 _ _ S0 ltac:(lia) ltac:(lia) I0) as Q.
  destruct (fmwm_loop _ _ _ _ _ _ _ _), (mwm_loop _ _ _ _ _ _ _ _); cbn [rbind Rres] in *; try contradiction; [|exact Q].
  now constructor.
Qed.
End Loop.
End Sim.
