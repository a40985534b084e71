(** Lemmas for the comparison of objects. *)
From Coq Require Import String.
From Coq Require Import List Ascii Bool Arith ZArith QArith Qpower Lia.
From Verif Require Import PyBase PyStr MemModel MemProofs2 ObjModel ObjSpec.
Import ListNotations.
Open Scope list_scope.
Open Scope nat_scope.

(** * Scalars *)
Lemma dyeq_spec : forall m1 e1 m2 e2,
  dyeq m1 e1 m2 e2 = true <-> (inject_Z m1 * Qpower 2 e1 == inject_Z m2 * Qpower 2 e2)%Q.
Proof.
  intros. unfold dyeq. set (e := Z.min e1 e2).
  assert (S : forall x, (e <= x)%Z -> (Qpower 2 x == inject_Z (2 ^ (x - e)) * Qpower 2 e)%Q).
  { intros x Hx. rewrite Zpower_Qpower by lia. change (inject_Z 2) with (2#1)%Q.
    rewrite <- Qpower_plus by discriminate. replace (x - e + e)%Z with x by lia. reflexivity. }
  rewrite (S e1), (S e2) by (unfold e; lia).
  assert (P : ~ (Qpower 2 e == 0)%Q) by (apply Qpower_not_0; discriminate).
  rewrite !Qmult_assoc, <- !inject_Z_mult. rewrite Z.eqb_eq. split.
  - intros ->. reflexivity.
  - intros H. apply Qmult_inj_r in H; [|exact P]. unfold Qeq in H. cbn in H. lia.
Qed.

Lemma sv_refl : forall v, same_value v v.
Proof. destruct v; cbn; auto. reflexivity. Qed.
Lemma sv_sym : forall v w, same_value v w -> same_value w v.
Proof. destruct v, w; cbn; auto. intros H. now symmetry. Qed.
Lemma sv_trans : forall u v w, same_value u v -> same_value v w -> same_value u w.
Proof. destruct u, v, w; cbn; try tauto; try congruence. apply Qeq_trans. Qed.

Definition fzero (f : flt) : bool := match f with FZero _ => true | _ => false end.
Definition fneg (f : flt) : bool := match f with FZero b => b | _ => false end.
Lemma fin_not_zero : forall m e, m <> 0%Z -> ~ (inject_Z m * Qpower 2 e == 0)%Q.
Proof.
  intros m e H E. apply Qmult_integral in E as [E|E].
  - unfold Qeq in E. cbn in E. lia.
  - revert E. apply Qpower_not_0. discriminate.
Qed.
Lemma same_flt : forall f g, flt_ok f -> flt_ok g ->
  (same_value (value_of f) (value_of g) <->
   (if fnan f && fnan g then true else flt_eq f g && (if fzero f && fzero g then Bool.eqb (fneg f) (fneg g) else true)) = true).
Proof.
  intros f g Hf Hg.
  destruct f as [|a|a|m e], g as [|b|b|m' e']; cbn in Hf, Hg |- *;
    try destruct a; try destruct b; cbn; rewrite ?andb_true_r; try tauto; try (split; discriminate);
    try (split; [reflexivity|reflexivity]); try (split; [tauto|discriminate]).
  - split; [|discriminate]. intros H. exfalso. apply (fin_not_zero m' e'); auto. now symmetry.
  - split; [|discriminate]. intros H. exfalso. apply (fin_not_zero m e); auto.
  - symmetry. apply dyeq_spec.
Qed.

Lemma flt_of_int_value : forall z, same_value (ValQ (inject_Z z)) (value_of (flt_of_int z)).
Proof.
  intros z. unfold flt_of_int. destruct (Z.eqb_spec z 0) as [->|H]; cbn; [reflexivity|]. now rewrite Qmult_1_r.
Qed.
Lemma flt_of_int_ok : forall z, flt_ok (flt_of_int z).
Proof. intros z. unfold flt_of_int. destruct (Z.eqb_spec z 0); cbn; auto. Qed.
Lemma parts_value : forall s, match num_parts s, complex_value s with
  | Some (r, i), Some (v, w) => same_value v (value_of r) /\ same_value w (value_of i)
  | None, None => True
  | _, _ => False
  end.
Proof.
  destruct s as [|s|b|z|f|f g]; cbn [num_parts complex_value]; auto.
  - split; [|apply sv_refl]. destruct b; apply (flt_of_int_value 1) || apply (flt_of_int_value 0).
  - split; [apply flt_of_int_value|apply sv_refl].
  - split; apply sv_refl.
  - split; apply sv_refl.
Qed.
Lemma parts_ok : forall s r i, scalar_ok s -> num_parts s = Some (r, i) -> flt_ok r /\ flt_ok i.
Proof.
  destruct s as [|s|b|z|f|f g]; cbn; intros r i H E; try discriminate; injection E as <- <-; auto using flt_of_int_ok;
    (split; [auto using flt_of_int_ok|exact I]).
Qed.
Lemma same_parts : forall a b r i r' i', num_parts a = Some (r, i) -> num_parts b = Some (r', i') ->
  (same_scalar a b <-> same_value (value_of r) (value_of r') /\ same_value (value_of i) (value_of i')).
Proof.
  intros a b r i r' i' Ha Hb. pose proof (parts_value a) as Pa. pose proof (parts_value b) as Pb.
  rewrite Ha in Pa. rewrite Hb in Pb. unfold same_scalar.
  destruct (complex_value a) as [[v w]|]; [|tauto]. destruct (complex_value b) as [[v' w']|]; [|tauto].
  destruct Pa as [A1 A2], Pb as [B1 B2]. split; intros [E1 E2]; split.
  - eapply sv_trans; [apply sv_sym, A1|]. eapply sv_trans; [exact E1|exact B1].
  - eapply sv_trans; [apply sv_sym, A2|]. eapply sv_trans; [exact E2|exact B2].
  - eapply sv_trans; [exact A1|]. eapply sv_trans; [exact E1|apply sv_sym, B1].
  - eapply sv_trans; [exact A2|]. eapply sv_trans; [exact E2|apply sv_sym, B2].
Qed.
Lemma same_none : forall a b, num_parts a = None \/ num_parts b = None -> (same_scalar a b <-> num_parts a = None /\ a = b).
Proof.
  intros a b H. unfold same_scalar. destruct a, b; cbn in *; destruct H as [H|H]; try discriminate;
    try (split; [tauto|intros [? ?]; congruence]); try tauto; try (split; [auto|tauto]).
Qed.

(** Real numbers as floats. *)
Lemma zero_test : forall s r, num_parts s = Some (r, FZero false) -> py_eq s (SInt 0) = fzero r.
Proof.
  intros s r H. unfold py_eq. assert (E : (match num_parts s, num_parts (SInt 0) with
            | Some (r, i), Some (r', i') => flt_eq r r' && flt_eq i i' | _, _ => false end) = fzero r).
  { rewrite H. cbn. rewrite andb_true_r. destruct r; reflexivity. }
  destruct s; try discriminate; exact E.
Qed.
Lemma eq_test : forall s t r i r' i', num_parts s = Some (r, i) -> num_parts t = Some (r', i') ->
  py_eq s t = flt_eq r r' && flt_eq i i'.
Proof.
  intros s t r i r' i' H H'. unfold py_eq.
  assert (E : (match num_parts s, num_parts t with
            | Some (r, i), Some (r', i') => flt_eq r r' && flt_eq i i' | _, _ => false end) = flt_eq r r' && flt_eq i i').
  { now rewrite H, H'. }
  destruct s; try discriminate; destruct t; try discriminate; exact E.
Qed.
Lemma nan_test : forall s r, is_complex s = false -> num_parts s = Some (r, FZero false) ->
  isnan s = Some (fnan r) \/ (isnan s = None /\ fnan r = false /\ fzero r = false).
Proof.
  intros [|s|b|z|f|f g] r C H; try discriminate; cbn in H; injection H as <-.
  - left. destruct b; reflexivity.
  - unfold isnan, flt_of_int. destruct ((- 2 ^ 63 <=? z) && (z <? 2 ^ 64))%Z eqn:E.
    + left. destruct (z =? 0)%Z; reflexivity.
    + right. split; auto. destruct (Z.eqb_spec z 0) as [->|]; [discriminate|auto].
  - left. reflexivity.
Qed.
Lemma sign_test : forall s r, is_complex s = false -> num_parts s = Some (r, FZero false) -> fzero r = true ->
  signbit s = Some (fneg r).
Proof.
  intros [|s|b|z|f|f g] r C H Z; try discriminate; cbn in H; injection H as <-.
  - destruct b; [discriminate|reflexivity].
  - unfold flt_of_int in *. destruct (Z.eqb_spec z 0) as [->|]; [reflexivity|discriminate].
  - destruct f; try discriminate. reflexivity.
Qed.
Lemma flt_eq_sym : forall f g, flt_eq f g = flt_eq g f.
Proof.
  destruct f, g; cbn; auto; [apply eq_true_iff_eq; rewrite !eqb_true_iff; split; congruence|].
  apply eq_true_iff_eq. rewrite !dyeq_spec. split; intros H; now symmetry.
Qed.

Lemma not_nan_eq : forall f g, fnan f && fnan g = false -> fnan f = true \/ fnan g = true -> flt_eq f g = false.
Proof. intros [] [] H [E|E]; try discriminate; reflexivity. Qed.
Lemma zero_eq : forall f g, fzero f = true -> fzero g = true -> flt_eq f g = true.
Proof. intros [] [] H E; try discriminate; reflexivity. Qed.

Lemma tail_real : forall a d r r', is_complex a = false -> is_complex d = false ->
  num_parts a = Some (r, FZero false) -> num_parts d = Some (r', FZero false) -> scalar_ok a -> scalar_ok d ->
  (sc_tail a d = true <-> same_scalar a d).
Proof.
  intros a d r r' Ca Cd Ha Hd Oa Od. rewrite (same_parts a d r _ r' _ Ha Hd).
  destruct (parts_ok _ _ _ Oa Ha) as [Or _]. destruct (parts_ok _ _ _ Od Hd) as [Or' _].
  rewrite (same_flt r r' Or Or').
  assert (T : same_value (value_of (FZero false)) (value_of (FZero false))) by apply sv_refl.
  unfold sc_tail.
  assert (Ia : isscalar a = true) by (destruct a; [discriminate Ha|reflexivity..]).
  assert (Id : isscalar d = true) by (destruct d; [discriminate Hd|reflexivity..]).
  rewrite Ia, Id. cbn [Bool.eqb negb].
  rewrite (zero_test a r Ha), (zero_test d r' Hd), (eq_test d a _ _ _ _ Hd Ha). cbn [flt_eq]. rewrite andb_true_r, (flt_eq_sym r' r).
  assert (SG : fzero r' && fzero r = true -> (match signbit d, signbit a with
     | Some b, Some b' => if negb (Bool.eqb b b') then false else flt_eq r r'
     | _, _ => flt_eq r r' end) = Bool.eqb (fneg r') (fneg r)).
  { intros E. apply andb_true_iff in E as [E1 E2]. rewrite (sign_test d r' Cd Hd E1), (sign_test a r Ca Ha E2).
    rewrite (zero_eq r r') by auto. destruct (Bool.eqb _ _); reflexivity. }
  assert (ES : Bool.eqb (fneg r') (fneg r) = Bool.eqb (fneg r) (fneg r')) by (destruct (fneg r'), (fneg r); reflexivity).
  assert (Main : (if fzero r' && fzero r then match signbit d, signbit a with
     | Some b, Some b' => if negb (Bool.eqb b b') then false else flt_eq r r'
     | _, _ => flt_eq r r' end else flt_eq r r') =
     flt_eq r r' && (if fzero r && fzero r' then Bool.eqb (fneg r) (fneg r') else true)).
  { rewrite (andb_comm (fzero r) (fzero r')). destruct (fzero r' && fzero r) eqn:E.
    - rewrite (SG eq_refl). apply andb_true_iff in E as [E1 E2]. rewrite (zero_eq r r') by auto. exact ES.
    - now rewrite andb_true_r. }
  destruct (nan_test a r Ca Ha) as [Na|(Na & Na1 & Na2)], (nan_test d r' Cd Hd) as [Nd|(Nd & Nd1 & Nd2)]; rewrite Na, Nd.
  - destruct (fnan r) eqn:F1, (fnan r') eqn:F2; cbn [andb]; rewrite ?Main; tauto.
  - rewrite Nd1, Nd2, !andb_false_r, andb_true_r.
    assert (X : (if fnan r then flt_eq r r' else flt_eq r r') = flt_eq r r') by (destruct (fnan r); reflexivity).
    tauto.
  - rewrite Na1, Na2. cbn [andb]. rewrite andb_true_r. destruct (fnan r'); tauto.
  - rewrite Na1, Na2. cbn [andb]. rewrite andb_true_r. tauto.
Qed.

Lemma tail_false : forall a d, (num_parts a = None \/ num_parts d = None) -> a <> d -> sc_tail a d = false.
Proof.
  intros a d H N.
  destruct (sc_tail a d) eqn:E; [|reflexivity]. exfalso. unfold sc_tail in E.
  assert (K : forall x y, num_parts x = None \/ num_parts y = None -> py_eq x y = true -> x = y).
  { intros x y K E'. destruct x as [|s|b|z|f|f g], y as [|s'|b'|z'|f'|f' g']; cbn in K, E'; try discriminate;
      try (destruct K; discriminate); auto. apply seqb_eq in E'. now subst. }
  assert (NE : py_eq d a = false).
  { destruct (py_eq d a) eqn:E'; [|reflexivity]. apply K in E'; [congruence|tauto]. }
  assert (Z0 : py_eq d (SInt 0) && py_eq a (SInt 0) = false).
  { destruct H as [H|H]; [destruct a as [|s|b|z|f|f g]|destruct d as [|s|b|z|f|f g]]; try discriminate H;
      [now rewrite andb_false_r..|reflexivity|reflexivity]. }
  rewrite Z0, NE in E. destruct (negb _) in E; [discriminate|].
  destruct H as [H|H].
  - assert (I : isnan a = None) by (destruct a; cbn in H; try discriminate; reflexivity). rewrite I in E.
    destruct (isnan d) as [[]|]; discriminate.
  - assert (I : isnan d = None) by (destruct d; cbn in H; try discriminate; reflexivity). rewrite I in E. discriminate.
Qed.
Lemma tail_other : forall a d, num_parts a = None \/ num_parts d = None -> (sc_tail a d = true <-> same_scalar a d).
Proof.
  intros a d H. rewrite same_none by exact H. split.
  - intros E. assert (D : {a = d} + {a <> d}).
    { repeat decide equality. }
    destruct D as [->|N]; [tauto|]. rewrite tail_false in E by auto. discriminate.
  - intros [E <-]. destruct a; try discriminate; cbn; [reflexivity|]. unfold sc_tail. cbn. apply seqb_refl.
Qed.

Lemma sc_eq_spec : forall a d, scalar_ok a -> scalar_ok d -> (sc_eq a d = true <-> same_scalar a d).
Proof.
  intros a d Oa Od.
  destruct (num_parts a) as [[r i]|] eqn:Pa.
  2:{ assert (Ca : is_complex a = false) by (destruct a; try discriminate; reflexivity).
      unfold sc_eq. rewrite Ca. cbn [orb]. destruct (is_complex d) eqn:Cd; [|now apply tail_other; left].
      assert (N : a <> d) by congruence. rewrite same_none by auto.
      assert (R : re a = a) by (destruct a; try discriminate; reflexivity).
      rewrite (tail_false a d), R by auto. rewrite (tail_false a (re d)).
      - cbn [andb]. split; [discriminate|tauto].
      - auto.
      - destruct a, d; cbn; try discriminate; congruence. }
  destruct (num_parts d) as [[r' i']|] eqn:Pd.
  2:{ assert (Cd : is_complex d = false) by (destruct d; try discriminate; reflexivity).
      unfold sc_eq. rewrite Cd, orb_false_r. destruct (is_complex a) eqn:Ca; [|now apply tail_other; right].
      assert (N : a <> d) by congruence. rewrite same_none by auto.
      assert (R : re d = d) by (destruct d; try discriminate; reflexivity).
      rewrite R. rewrite (tail_false a d), (tail_false (re a) d); auto.
      - cbn [andb]. split; [discriminate|]. intros [X Y]. congruence.
      - destruct a, d; cbn; try discriminate; congruence. }
  destruct (parts_ok _ _ _ Oa Pa) as [Or Oi]. destruct (parts_ok _ _ _ Od Pd) as [Or' Oi'].
  assert (Ra : num_parts (re a) = Some (r, FZero false) /\ is_complex (re a) = false /\ scalar_ok (re a)).
  { destruct a; try discriminate; cbn in *; injection Pa as <- <-; auto. }
  assert (Rd : num_parts (re d) = Some (r', FZero false) /\ is_complex (re d) = false /\ scalar_ok (re d)).
  { destruct d; try discriminate; cbn in *; injection Pd as <- <-; auto. }
  assert (Ia : num_parts (im a) = Some (i, FZero false) /\ is_complex (im a) = false /\ scalar_ok (im a)).
  { destruct a; try discriminate; cbn in *; injection Pa as <- <-; auto. }
  assert (Id : num_parts (im d) = Some (i', FZero false) /\ is_complex (im d) = false /\ scalar_ok (im d)).
  { destruct d; try discriminate; cbn in *; injection Pd as <- <-; auto. }
  unfold sc_eq. destruct (is_complex a || is_complex d) eqn:C.
  2:{ apply orb_false_iff in C as [Ca Cd]. assert (i = FZero false /\ i' = FZero false) as [-> ->].
      { destruct a; try discriminate; destruct d; try discriminate; cbn in *; split; congruence. }
      eapply tail_real; eauto. }
  destruct Ra as (Ra & Ra1 & Ra2), Rd as (Rd & Rd1 & Rd2), Ia as (Ia & Ia1 & Ia2), Id as (Id & Id1 & Id2).
  pose proof (tail_real _ _ _ _ Ra1 Rd1 Ra Rd Ra2 Rd2) as TR. pose proof (tail_real _ _ _ _ Ia1 Id1 Ia Id Ia2 Id2) as TI.
  assert (Zz : same_value (value_of (FZero false)) (value_of (FZero false))) by apply sv_refl.
  rewrite (same_parts _ _ _ _ _ _ Ra Rd) in TR. rewrite (same_parts _ _ _ _ _ _ Ia Id) in TI.
  rewrite (same_parts _ _ _ _ _ _ Pa Pd).
  destruct (sc_tail (re a) (re d)) eqn:E1; [|cbn [andb]; split; [discriminate|]; intros [A B]; apply TR; auto].
  destruct (sc_tail (im a) (im d)) eqn:E2; [|cbn [andb]; split; [discriminate|]; intros [A B]; apply TI; auto].
  cbn [andb]. destruct (proj1 TR eq_refl) as [S1 _]. destruct (proj1 TI eq_refl) as [S2 _].
  split; [tauto|]. intros _. clear TR TI E1 E2.
  unfold sc_tail.
  assert (Sa : isscalar a = true) by (destruct a; try discriminate; reflexivity).
  assert (Sd : isscalar d = true) by (destruct d; try discriminate; reflexivity).
  rewrite Sa, Sd. cbn [Bool.eqb negb]. rewrite (eq_test d a _ _ _ _ Pd Pa).
  apply same_flt in S1; auto. apply same_flt in S2; auto.
  assert (NA : isnan a = Some (fnan r || fnan i) \/ isnan a = None /\ fnan r || fnan i = false).
  { destruct a as [|s|b|z|f|f g]; try discriminate; cbn in Pa; injection Pa as <- <-.
    - left. destruct b; reflexivity.
    - unfold isnan, flt_of_int. destruct ((- 2 ^ 63 <=? z) && (z <? 2 ^ 64))%Z; [left|right]; destruct (z =? 0)%Z; auto.
    - left. cbn. now rewrite orb_false_r.
    - left. reflexivity. }
  assert (ND : isnan d = Some (fnan r' || fnan i') \/ isnan d = None /\ fnan r' || fnan i' = false).
  { destruct d as [|s|b|z|f|f g]; try discriminate; cbn in Pd; injection Pd as <- <-.
    - left. destruct b; reflexivity.
    - unfold isnan, flt_of_int. destruct ((- 2 ^ 63 <=? z) && (z <? 2 ^ 64))%Z; [left|right]; destruct (z =? 0)%Z; auto.
    - left. cbn. now rewrite orb_false_r.
    - left. reflexivity. }
  assert (SB : signbit d = None \/ signbit a = None).
  { destruct a; try discriminate; destruct d; try discriminate; cbn; auto. }
  assert (EQ : fnan r || fnan i = false \/ fnan r' || fnan i' = false -> flt_eq r' r && flt_eq i' i = true).
  { intros H. assert (Z1 : fnan r && fnan r' = false) by (destruct (fnan r), (fnan i), (fnan r'), (fnan i'); cbn in H; destruct H; try discriminate; reflexivity).
    assert (Z2 : fnan i && fnan i' = false) by (destruct (fnan r), (fnan i), (fnan r'), (fnan i'); cbn in H; destruct H; try discriminate; reflexivity).
    rewrite Z1 in S1. rewrite Z2 in S2. apply andb_true_iff in S1 as [S1 _]. apply andb_true_iff in S2 as [S2 _].
    now rewrite (flt_eq_sym r' r), (flt_eq_sym i' i), S1, S2. }
  assert (SGN : (match signbit d, signbit a with
     | Some b, Some b' => if negb (Bool.eqb b b') then false else flt_eq r' r && flt_eq i' i
     | _, _ => flt_eq r' r && flt_eq i' i end) = flt_eq r' r && flt_eq i' i).
  { destruct SB as [-> | ->]; [reflexivity|]. destruct (signbit d); reflexivity. }
  rewrite SGN.
  destruct NA as [-> |[-> NA]], ND as [-> |[-> ND]].
  - destruct (fnan r || fnan i) eqn:F1, (fnan r' || fnan i') eqn:F2; [reflexivity|..]; rewrite EQ by auto; destruct (py_eq d _ && py_eq a _); reflexivity.
  - apply EQ. auto.
  - rewrite EQ by auto. destruct (fnan r' || fnan i'); reflexivity.
  - apply EQ. auto.
Qed.

(** * Nested values *)
Section Ind.
  Variable P : pv -> Prop.
  Hypothesis HS : forall s, P (VS s).
  Hypothesis HL : forall l, Forall P l -> P (VList l).
  Hypothesis HT : forall l, Forall P l -> P (VTuple l).
  Hypothesis HD : forall l, Forall (fun x => P (snd x)) l -> P (VDict l).
  Hypothesis HA : forall c l, P (VArr c l).
  Fixpoint pv_ind' (a : pv) : P a.
  Proof.
    destruct a as [s|l|l|l|c l]; [apply HS|apply HL|apply HT|apply HD|apply HA].
    - induction l as [|x l IH]; constructor; [apply pv_ind'|exact IH].
    - induction l as [|x l IH]; constructor; [apply pv_ind'|exact IH].
    - induction l as [|[k x] l IH]; constructor; [apply pv_ind'|exact IH].
  Defined.
End Ind.

Fixpoint seq_eq (l m : list pv) : bool :=
  match l, m with
  | [], _ => true
  | x :: l, y :: m => allequal x y && seq_eq l m
  | _ :: _, [] => false
  end.
Fixpoint dict_eq (m l : list (str * pv)) : bool :=
  match l with
  | [] => true
  | (k, v) :: r => match dget k m with None => false | Some w => allequal v w && dict_eq m r end
  end.
Definition sequence (a : pv) (l : list pv) : Prop := a = VList l \/ a = VTuple l.
Lemma allequal_seq : forall a b l m, sequence a l -> sequence b m ->
  allequal a b = (length l =? length m) && seq_eq l m.
Proof.
  assert (K : forall l m F, (forall l m, F l m = match l, m with
    | [], _ => true | x :: l, y :: m => allequal x y && F l m | _ :: _, [] => false end) -> F l m = seq_eq l m).
  { induction l as [|x l IH]; intros m F HF; rewrite HF; [reflexivity|]. destruct m as [|y m]; [reflexivity|].
    cbn [seq_eq]. f_equal. now apply IH. }
  intros a b l m [-> | ->] [-> | ->]; cbn [allequal]; f_equal; apply K; intros [|? ?] [|? ?]; reflexivity.
Qed.
Lemma allequal_dict : forall l m, allequal (VDict l) (VDict m) = (length l =? length m) && dict_eq m l.
Proof.
  intros l m. cbn [allequal]. f_equal. induction l as [|[k v] l IH]; [reflexivity|]. cbn [dict_eq]. now rewrite <- IH.
Qed.
Lemma plain_list : forall l, fold_right (fun x p => plain_value x /\ p) True l <-> Forall plain_value l.
Proof. induction l; cbn; split; intros H; auto; [constructor; tauto|inversion H; subst; tauto]. Qed.
Lemma plain_dict : forall (l : list (str * pv)), fold_right (fun x p => plain_value (snd x) /\ p) True l <-> Forall (fun x => plain_value (snd x)) l.
Proof. induction l; cbn; split; intros H; auto; [constructor; tauto|inversion H; subst; tauto]. Qed.

Lemma same_seq_inv : forall a b l m, sequence a l -> sequence b m -> (same a b <-> Forall2 same l m).
Proof.
  intros a b l m Ha Hb. split.
  - intros H. inversion H as [? ? ? E1 E2|? ? l' m' H1 H2 H3|? ? H1 H2 E1 E2]; subst.
    + destruct Ha; discriminate.
    + assert (l' = l) by (destruct H1, Ha; congruence). assert (m' = m) by (destruct H2, Hb; congruence). now subst.
    + destruct Ha; discriminate.
  - intros H. eapply same_seq; eauto.
Qed.
Lemma dget_not_in : forall (m : list (str * pv)) k, dget k m = None <-> ~ In k (map fst m).
Proof.
  induction m as [|[k' v] m IH]; intros k; cbn [dget map fst In]; [tauto|].
  destruct (seqb k k') eqn:E.
  - apply seqb_eq in E. subst. split; [discriminate|]. intros H. exfalso. apply H. now left.
  - apply seqb_neq in E. rewrite IH. split; [intros H [X|X]; [congruence|tauto]|tauto].
Qed.
Lemma dget_in_iff : forall (m : list (str * pv)) k v, NoDup (map fst m) -> (dget k m = Some v <-> In (k, v) m).
Proof.
  induction m as [|[k' v'] m IH]; intros k v H; cbn [dget]; [split; [discriminate|intros []]|].
  cbn in H. apply NoDup_cons_iff in H as [H1 H2]. destruct (seqb k k') eqn:E.
  - apply seqb_eq in E. subst. split; [intros X; injection X as ->; now left|].
    intros [X|X]; [congruence|]. exfalso. apply H1. apply in_map_iff. exists (k', v). auto.
  - apply seqb_neq in E. rewrite IH by auto. split; [now right|]. intros [X|X]; [congruence|auto].
Qed.
Lemma dict_eq_spec : forall m l, dict_eq m l = true <-> (forall k v, In (k, v) l -> exists w, dget k m = Some w /\ allequal v w = true).
Proof.
  induction l as [|[k v] l IH]; cbn [dict_eq].
  - split; auto. intros _ ? ? [].
  - destruct (dget k m) as [w|] eqn:E.
    + rewrite andb_true_iff, IH. split.
      * intros [A B] k' v' [X|X]; [injection X as <- <-; eauto|eauto].
      * intros H. split; [|intros; apply H; now right]. destruct (H k v) as (w' & W1 & W2); [now left|]. congruence.
    + split; [discriminate|]. intros H. destruct (H k v) as (w' & W1 & W2); [now left|]. congruence.
Qed.

Lemma allequal_same : forall a b, plain_value a -> plain_value b -> (allequal a b = true <-> same a b).
Proof.
  assert (S : forall l, Forall (fun a => forall b, plain_value a -> plain_value b -> (allequal a b = true <-> same a b)) l ->
    forall m, Forall plain_value l -> Forall plain_value m ->
    ((length l =? length m) && seq_eq l m = true <-> Forall2 same l m)).
  { intros l IH. induction l as [|x l IHl]; intros m Hl Hm.
    - destruct m; cbn; split; intros H; try discriminate; auto; inversion H.
    - destruct m as [|y m]; [cbn; split; intros H; [discriminate|inversion H]|].
      inversion Hl; inversion Hm; inversion IH; subst. cbn [length seq_eq]. cbn [Nat.eqb].
      specialize (IHl ltac:(auto) m ltac:(auto) ltac:(auto)).
      assert (X : allequal x y = true <-> same x y) by auto. split.
      + intros H. apply andb_true_iff in H as [A B]. apply andb_true_iff in B as [B C]. constructor; [tauto|].
        apply IHl. now rewrite A, C.
      + intros H. inversion H; subst. assert (Y := proj2 IHl ltac:(auto)). apply andb_true_iff in Y as [A C].
        rewrite A, C, (proj2 X); auto. }
  induction a as [s|l IH|l IH|l IH|c l] using pv_ind'; intros b Pa Pb.
  - destruct b as [t|m|m|m|c m]; cbn [plain_value] in *; try tauto; try (cbn; split; [discriminate|]; intros H; inversion H; subst;
      repeat match goal with X : _ \/ _ |- _ => destruct X; try discriminate end).
    cbn [allequal]. rewrite sc_eq_spec by auto. split; [now constructor|]. intros H; inversion H; subst; auto.
    destruct H0; discriminate.
  - cbn [plain_value] in Pa. apply plain_list in Pa.
    destruct b as [t|m|m|m|c m]; cbn [plain_value] in Pb; try tauto.
    + cbn. split; [discriminate|]. intros H; inversion H; subst. destruct H1; discriminate.
    + apply plain_list in Pb. rewrite (allequal_seq _ _ l m), (same_seq_inv _ _ l m) by (left; reflexivity). now apply S.
    + apply plain_list in Pb. rewrite (allequal_seq _ _ l m), (same_seq_inv _ _ l m) by (left; reflexivity) || (right; reflexivity); now apply S.
    + cbn. split; [discriminate|]. intros H; inversion H; subst. destruct H1; discriminate.
  - cbn [plain_value] in Pa. apply plain_list in Pa.
    destruct b as [t|m|m|m|c m]; cbn [plain_value] in Pb; try tauto.
    + cbn. split; [discriminate|]. intros H; inversion H; subst. destruct H1; discriminate.
    + apply plain_list in Pb.
      assert (A1 : sequence (VTuple l) l) by (right; reflexivity). assert (A2 : sequence (VList m) m) by (left; reflexivity).
      rewrite (allequal_seq _ _ l m A1 A2), (same_seq_inv _ _ l m A1 A2). now apply S.
    + apply plain_list in Pb.
      assert (A1 : sequence (VTuple l) l) by (right; reflexivity). assert (A2 : sequence (VTuple m) m) by (right; reflexivity).
      rewrite (allequal_seq _ _ l m A1 A2), (same_seq_inv _ _ l m A1 A2). now apply S.
    + cbn. split; [discriminate|]. intros H; inversion H; subst. destruct H1; discriminate.
  - destruct b as [t|m|m|m|c m]; cbn [plain_value] in Pa, Pb; try tauto;
      try (cbn; split; [discriminate|]; intros H; inversion H; subst; destruct H0; discriminate).
    destruct Pa as [Na Pa], Pb as [Nb Pb]. apply plain_dict in Pa, Pb. rewrite Forall_forall in *.
    rewrite allequal_dict, andb_true_iff, Nat.eqb_eq, dict_eq_spec. split.
    + intros [L H]. assert (I : incl (map fst l) (map fst m)).
      { intros k Hk. apply in_map_iff in Hk as ([k' v] & <- & Hk). destruct (H k' v Hk) as (w & W & _).
        apply dget_in_iff in W; auto. apply in_map_iff. exists (k', w). auto. }
      assert (I' : incl (map fst m) (map fst l)).
      { apply NoDup_length_incl; auto. rewrite !map_length. lia. }
      apply same_dict; [split; auto|]. intros k v w Hv Hw. destruct (H k v Hv) as (w' & W & E).
      apply (dget_in_iff m k w Nb) in Hw. assert (w' = w) by congruence. subst w'.
      apply (IH (k, v) Hv w); [exact (Pa _ Hv)| |exact E]. apply (dget_in_iff m k w Nb) in Hw. exact (Pb _ Hw).
    + intros H. inversion H as [|? ? ? ? X|? ? K V]; subst; [destruct X; discriminate|]. split.
      * rewrite <- (map_length fst l), <- (map_length fst m). apply Nat.le_antisymm; apply NoDup_incl_length; auto; intros k; apply K.
      * intros k v Hv. assert (Hk : In k (map fst m)) by (apply K; apply in_map_iff; exists (k, v); auto).
        apply in_map_iff in Hk as ([k' w] & E & Hw). cbn in E. subst k'. exists w. split; [now apply dget_in_iff|].
        apply (IH (k, v) Hv w); [exact (Pa _ Hv)|exact (Pb _ Hw)|]. cbn. eauto.
  - destruct Pa.
Qed.

Lemma scalar_refl : forall s, same_scalar s s.
Proof. intros s. unfold same_scalar. destruct (complex_value s) as [[v w]|]; auto. split; apply sv_refl. Qed.
Lemma scalar_sym : forall s t, same_scalar s t -> same_scalar t s.
Proof.
  intros s t. unfold same_scalar. destruct (complex_value s) as [[v w]|], (complex_value t) as [[v' w']|]; auto.
  intros [A B]. split; now apply sv_sym.
Qed.
Lemma scalar_trans : forall s t u, same_scalar s t -> same_scalar t u -> same_scalar s u.
Proof.
  intros s t u. unfold same_scalar.
  destruct (complex_value s) as [[v w]|], (complex_value t) as [[v' w']|], (complex_value u) as [[v'' w'']|]; try tauto; try congruence.
  intros [A B] [A' B']. split; eapply sv_trans; eauto.
Qed.

Lemma same_refl : forall a, plain_value a -> same a a.
Proof.
  induction a as [s|l IH|l IH|l IH|c l] using pv_ind'; intros Pa; cbn [plain_value] in Pa.
  - constructor. apply scalar_refl.
  - apply plain_list in Pa. apply (same_seq _ _ l l); auto. induction l; constructor; inversion Pa; inversion IH; subst; auto.
  - apply plain_list in Pa. apply (same_seq _ _ l l); auto. induction l; constructor; inversion Pa; inversion IH; subst; auto.
  - destruct Pa as [N Pa]. apply plain_dict in Pa. rewrite Forall_forall in *. apply same_dict; [tauto|].
    intros k v w Hv Hw. apply dget_in_iff in Hv, Hw; auto. assert (v = w) by congruence. subst. apply dget_in_iff in Hv; auto.
    apply (IH _ Hv). apply (Pa _ Hv).
  - destruct Pa.
Qed.
Lemma same_sym : forall a b, same a b -> same b a.
Proof.
  induction a as [s|l IH|l IH|l IH|c l] using pv_ind'; intros b H.
  - inversion H as [? ? X|? ? ? ? X|]; subst; [constructor; now apply scalar_sym|destruct X; discriminate].
  - inversion H as [|? ? l' m [X|X] Y Z|]; subst; [|discriminate]. injection X as <-. eapply same_seq; eauto.
    clear -IH Z. induction Z; constructor; inversion IH; subst; auto.
  - inversion H as [|? ? l' m [X|X] Y Z|]; subst; [discriminate|]. injection X as <-. eapply same_seq; eauto.
    clear -IH Z. induction Z; constructor; inversion IH; subst; auto.
  - inversion H as [|? ? ? ? X|? m K V]; subst; [destruct X; discriminate|]. apply same_dict; [intros; symmetry; auto|].
    rewrite Forall_forall in IH. intros k v w Hv Hw. apply (IH _ Hw). cbn. eauto.
  - inversion H as [|? ? ? ? X|]; subst. destruct X; discriminate.
Qed.
Lemma same_trans : forall a b c, same a b -> same b c -> same a c.
Proof.
  assert (SQ : forall (l m n : list pv), Forall (fun a => forall b c, same a b -> same b c -> same a c) l ->
    Forall2 same l m -> Forall2 same m n -> Forall2 same l n).
  { intros l m n IH H. revert n. induction H as [|x y l m Hxy H IHH]; intros n Hn; inversion Hn; subst; constructor;
      inversion IH; subst; eauto. }
  assert (QQ : forall b m n, sequence b m -> sequence b n -> m = n) by (intros b m n [-> | ->] [E|E]; congruence).
  induction a as [s|l IH|l IH|l IH|k l] using pv_ind'; intros b c H G.
  - inversion H as [? t X|? ? ? ? X|]; subst; [|destruct X; discriminate].
    inversion G as [? ? Y|? ? ? ? Y|]; subst; [|destruct Y; discriminate]. constructor. eapply scalar_trans; eauto.
  - inversion H as [|? ? l' m X Y Z|]; subst.
    inversion G as [? ? ? E|? ? m' n X' Y' Z'|? ? ? ? E]; subst; try (destruct Y; discriminate).
    assert (l' = l) by (destruct X; congruence). assert (m' = m) by (eapply QQ; eauto). subst.
    eapply same_seq; eauto.
  - inversion H as [|? ? l' m X Y Z|]; subst.
    inversion G as [? ? ? E|? ? m' n X' Y' Z'|? ? ? ? E]; subst; try (destruct Y; discriminate).
    assert (l' = l) by (destruct X; congruence). assert (m' = m) by (eapply QQ; eauto). subst.
    eapply same_seq; eauto.
  - inversion H as [|? ? ? ? X|? m K V]; subst; [destruct X; discriminate|].
    inversion G as [|? ? ? ? X|? n K' V']; subst; [destruct X; discriminate|].
    apply same_dict; [intros k; rewrite K; apply K'|]. rewrite Forall_forall in IH. intros k v w Hv Hw.
    assert (Hk : In k (map fst m)) by (apply K; apply in_map_iff; exists (k, v); auto).
    apply in_map_iff in Hk as ([k' u] & E & Hu). cbn in E. subst k'. eapply (IH _ Hv); cbn; eauto.
  - inversion H as [|? ? ? ? X|]; subst. destruct X; discriminate.
Qed.
