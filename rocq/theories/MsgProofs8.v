(** The results about messages in terms of the functions of the other models. *)
From Coq Require Import List Arith ZArith Bool Lia.
From Verif Require Import PyBase PartModel PartSpec PartProofs SliceModel RedModel RedSpec RedProofs DistModel
  MsgModel MsgSpec MsgProofs MsgProofs2 MsgProofs3 MsgProg MsgProofs4 MsgProofs5 MsgProofs6 MsgProofs7.
Import ListNotations.
Open Scope nat_scope.

Section Unique.
  Context {D : Type} (blank : D).
  Lemma unique_end : forall eager (P : nat -> list (op D)) s n,
    (forall r, r < n -> exists o, rfe [] (P r) = Some o) ->
    (exists bound, forall i t, run blank eager i (map (fun r => start (P r) (s r)) (seq 0 n)) t -> i <= bound)
    /\ forall i j t u, run blank eager i (map (fun r => start (P r) (s r)) (seq 0 n)) t -> stuck blank eager t ->
         run blank eager j (map (fun r => start (P r) (s r)) (seq 0 n)) u -> stuck blank eager u -> t = u.
  Proof.
    intros eager P s n H. split.
    - eexists. intros i t R. apply run_total in R. eapply Nat.le_trans; [|exact R]. lia.
    - intros i j t u R1 S1 R2 S2. apply run_steps in R1, R2.
      assert (I : inv (map (fun r => start (P r) (s r)) (seq 0 n))).
      { intros r k E. apply world_nth_inv in E. destruct E as [L ->]. destruct (H r L) as [o Ro]. eapply rinv_start; eauto. }
      destruct (confluence blank eager _ I _ _ R1 R2) as [w [W1 W2]].
      rewrite (steps_stuck _ _ _ _ S1 W1) in *. apply (steps_stuck _ _ _ _ S2 W2).
  Qed.
End Unique.

Section RedAll.
  Context {A : Type} (G : list nat -> A) (gshape : list nat) (m : nat) (axes : nat -> nat) (count : nat) (locals : nat -> nd (option A)).
  Hypothesis m_pos : 2 <= m.
  Hypothesis axes_ok : forall j, j <= count -> axes j < length gshape.
  Hypothesis axes_neq : forall j, j < count -> axes j <> axes (j + 1).
  Hypothesis shares : forall q, q < m -> IsShare G gshape m (axes 0) q (locals q).
  Fixpoint after (j : nat) : nat -> nd (option A) :=
    match j with
    | 0 => locals
    | S j' => fun r => match one gshape m axes (fun _ => after j') j' r with Ok a => a | Err _ => locals r end
    end.
  Lemma one_ext : forall L L' j r, L j = L' j -> one (A := A) gshape m axes L j r = one gshape m axes L' j r.
  Proof. intros L L' j r E. unfold one. rewrite E. auto. Qed.
  Lemma one_share : forall L j r, r < m -> j < count -> (forall q, q < m -> IsShare G gshape m (axes j) q (L j q)) ->
    exists arr, one gshape m axes L j r = Ok arr /\ IsShare G gshape m (axes (j + 1)) r arr.
  Proof.
    intros L j r Lr Lj H. unfold one, splits, split_all. rewrite !split_m_closed' by lia. cbn [fst snd].
    apply (exchange_share G gshape m (axes j) (axes (j + 1))); auto; try (apply axes_ok; lia). lia.
  Qed.
  Lemma after_share : forall j, j <= count -> forall q, q < m -> IsShare G gshape m (axes j) q (after j q).
  Proof.
    induction j; intros Lj q Lq; [apply shares; auto|]. simpl.
    destruct (one_share (fun _ => after j) j q Lq) as [arr [-> H]]; [lia|intros; apply IHj; auto; lia|]. rewrite <- Nat.add_1_r. auto.
  Qed.
  Lemma after_chain : forall j r, r < m -> j < count -> one gshape m axes after j r = Ok (after (j + 1) r).
  Proof.
    intros j r Lr Lj. rewrite Nat.add_1_r. simpl. rewrite (one_ext after (fun _ => after j)) by auto.
    destruct (one_share (fun _ => after j) j r Lr Lj) as [arr [E H]]; [intros; apply after_share; auto; lia|]. rewrite E. auto.
  Qed.
  Lemma seq_ends : forall eager (s : nat -> list (@cell A)), (forall r, r < m -> 3 * count < length (s r)) ->
    (forall r, r < m -> get no_cell (s r) 0 = Ok (locals r)) ->
    always_ends no_cell eager (map (fun r => start (redistribute_seq gshape m axes count r) (s r)) (seq 0 m))
      (fun r st => exists arr, get no_cell st (3 * count) = Ok arr /\ IsShare G gshape m (axes count) r arr).
  Proof.
    intros eager s Ls Hs. apply does_always with (S' := seq_state gshape m axes after s count).
    - apply seq_does; auto. intros; apply after_chain; auto.
    - intros r L. exists []. apply seq_rfe.
    - intros r L. exists (after count r). split; [|apply after_share; auto].
      apply (seq_get gshape m axes after s count); auto. intros; apply after_chain; auto.
  Qed.
End RedAll.

Section TransposeAll.
  Lemma tr_received : forall D (blank : D) n block s r p, r < n -> p < n -> n + n <= length (s r) ->
    get blank (tr_final n block s r) (n + p) = block p r.
  Proof.
    intros D blank n block s r p Lr Lp Ls. unfold tr_final. apply get_puts_in.
    - apply FinFun.Injective_map_NoDup; [|apply seq_NoDup]. intros a b E. lia.
    - apply (in_combine_map _ (fun ir => n + ir) (fun ir => block ir r)). apply in_seq. lia.
    - rewrite writes_length. lia.
  Qed.
  Lemma transpose_ends : forall A (locals : list (list (list A))) nr nc nm n out pc sac eac pr sar ear eager s,
    2 <= n -> split_all nc n = Ok (pc, sac, eac) -> split_all nr n = Ok (pr, sar, ear) ->
    (forall r, r < n -> transpose_blocks locals nr nc nm n r = Ok (out r)) ->
    (forall r, r < n -> n + n <= length (s r)) ->
    always_ends [] eager
      (map (fun r => start (transpose_prog n (fun p q => cols (nth q sac 0) (nth q eac 0) (nth p (map (map (firstn nc)) locals) [])) r) (s r)) (seq 0 n))
      (fun r st => out r = fold_left (fun buf ir => set_rows (nth ir sar 0 * nm) (map Some (get [] st (n + ir))) buf) (seq 0 n) (repeat None (nr * nm))).
  Proof.
    intros A locals nr nc nm n out pc sac eac pr sar ear eager s Hn Ec Er Ho Ls.
    apply does_always with (S' := tr_final n (fun p q => cols (nth q sac 0) (nth q eac 0) (nth p (map (map (firstn nc)) locals) [])) s).
    - apply tr_does. auto.
    - intros r L. exists []. apply rfe_tr. auto.
    - intros r L. specialize (Ho r L). unfold transpose_blocks in Ho. destruct (Nat.leb_spec n 1); [lia|]. rewrite Er, Ec in Ho.
      destruct (forallb _ _); [|discriminate]. injection Ho as <-.
      assert (X : forall l buf, (forall x, In x l -> x < n) ->
        fold_left (fun buf ir => set_rows (nth ir sar 0 * nm) (map Some (cols (nth r sac 0) (nth r eac 0) (nth ir (map (map (firstn nc)) locals) []))) buf) l buf
        = fold_left (fun buf ir => set_rows (nth ir sar 0 * nm) (map Some (get [] (tr_final n
             (fun p q => cols (nth q sac 0) (nth q eac 0) (nth p (map (map (firstn nc)) locals) [])) s r) (n + ir))) buf) l buf).
      { induction l as [|x l IH]; intros buf K; auto. cbn [fold_left]. rewrite (tr_received _ [] n _ s r x) by (auto; apply K; left; auto).
        apply IH. intros; apply K; right; auto. }
      apply X. intros x I. apply in_seq in I. lia.
  Qed.
End TransposeAll.

Section CommonAll.
  Lemma common_ends : forall D (blank : D) n nonempty eager (s : nat -> list D), (forall r, r < n -> n < length (s r)) ->
    always_ends blank eager (map (fun r => start (to_common_prog n nonempty r) (s r)) (seq 0 n))
      (fun r st => length st = length (s r) /\ get blank st 0 = get blank (s r) 0 /\ forall i, i < n ->
         get blank st (1 + i) = if nonempty i then get blank (s i) 0 else get blank (s r) (1 + i)).
  Proof.
    intros D blank n nonempty eager s Ls.
    apply does_always with (S' := fun r => full n nonempty (fun i => get blank (s i) 0) (s r)).
    - apply common_does. auto.
    - intros r L. exists []. apply rfe_common.
    - intros r L. split; [apply full_length|]. split; [apply full_zero|]. intros i Li. apply (full_section blank n nonempty (fun i => get blank (s i) 0)); auto.
  Qed.
  (** The array made from the sections. *)
  Lemma common_sections : forall A size (locals : nat -> nd A) starts g (sec : nat -> nd A), 2 <= size ->
    (forall i, i < size -> forallb (Nat.ltb 0) (shp (locals i)) = true -> sec i = locals i) ->
    gather_local size locals starts g =
    fold_left (fun acc i => rbind acc (fun g => assign g (section (starts i) (shp (locals i))) (sec i)))
      (filter (fun i => forallb (Nat.ltb 0) (shp (locals i))) (seq 0 size)) (Ok g).
  Proof.
    intros A size locals starts g sec Hs H. unfold gather_local. destruct (Nat.eqb_spec size 1); [lia|].
    assert (X : forall l acc, (forall i, In i l -> sec i = locals i) ->
      fold_left (fun acc i => rbind acc (fun g => assign g (section (starts i) (shp (locals i))) (locals i))) l acc
      = fold_left (fun acc i => rbind acc (fun g => assign g (section (starts i) (shp (locals i))) (sec i))) l acc).
    { induction l as [|i l IH]; intros acc K; auto. cbn [fold_left]. rewrite (K i) by (left; auto). apply IH. intros; apply K; right; auto. }
    apply X. intros i I. apply filter_In in I. destruct I as [I E]. apply in_seq in I. apply H; auto. lia.
  Qed.
  Lemma gather_local_ends : forall A size (locals : nat -> nd A) starts g root eager blank s, 2 <= size -> root < size ->
    (forall r, r < size -> size < length (s r)) -> (forall r, r < size -> get blank (s r) 0 = locals r) ->
    always_ends blank eager
      (map (fun r => start (gather_local_prog size (fun i => forallb (Nat.ltb 0) (shp (locals i))) root r) (s r)) (seq 0 size))
      (fun r st => (r <> root -> st = s r) /\ (r = root ->
         gather_local size locals starts g =
         fold_left (fun acc i => rbind acc (fun g => assign g (section (starts i) (shp (locals i))) (get blank st (1 + i))))
           (filter (fun i => forallb (Nat.ltb 0) (shp (locals i))) (seq 0 size)) (Ok g))).
  Proof.
    intros A size locals starts g root eager blank s Hs Hr Ls Hl.
    apply does_always with (S' := fun r => if r =? root then full size (fun i => forallb (Nat.ltb 0) (shp (locals i))) locals (s r) else s r).
    - apply gl_does; auto.
    - intros r L. exists []. apply rfe_gl.
    - intros r L. split.
      + intros N. rewrite (proj2 (Nat.eqb_neq r root)); auto.
      + intros ->. rewrite Nat.eqb_refl. apply common_sections; auto. intros i Li E. rewrite full_section; auto. rewrite E. auto.
  Qed.
End CommonAll.

Lemma check_ends : forall D (blank : D) n eager (s : nat -> list D), (forall r, r < n -> n < length (s r)) ->
  always_ends blank eager (map (fun r => start (check_prog n r) (s r)) (seq 0 n))
    (fun r st => forall p, p < n -> get blank st (1 + p) = get blank (s p) 0).
Proof.
  intros D blank n eager s Ls. apply does_always with (S' := ck_final blank n s).
  - apply ck_does.
  - intros r L. apply rfe_ck. auto.
  - intros r L p Lp. apply ck_get; auto.
Qed.

Lemma gather_all : forall D (blank : D) n root eager (s : nat -> list D), root < n -> n + n < length (s root) ->
  always_ends blank eager (map (fun r => start (gather_prog blank n root r) (s r)) (seq 0 n))
    (fun r st => r = root ->
       (forall i, i < n -> i <> root -> get blank st (1 + n + i) = get blank (s i) 0)
       /\ (get blank st (1 + n + root) = get blank (s root) (1 + root) \/ get blank st (1 + n + root) = get blank (s root) 0)
       /\ ((forall i, eager root i = false) -> get blank st (1 + n + root) = get blank (s root) 0)).
Proof.
  intros D blank n root eager s L Ls. destruct (gather_ends blank n root L eager s Ls) as [B F]. split; auto.
  intros i t R St. destruct (F i t R St) as [F1 [F2 F3]]. split; auto. split; auto.
  intros r k E ->. destruct (F3 root k E) as [_ [_ F4]]. specialize (F4 eq_refl). split.
  - intros j Lj Nj. apply F4; auto.
  - apply (gather_own blank n root L eager i s t k Ls R E). apply F2. eapply nth_error_In; eauto.
Qed.
