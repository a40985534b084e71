(** Lemmas for the history. *)
From Coq Require Import List Bool Arith Lia.
From Verif Require Import PyBase HistModel HistSpec.
Import ListNotations.
Open Scope list_scope.
Open Scope nat_scope.

Lemma teqb_eq : forall a b, teqb a b = true <-> a = b.
Proof.
  induction a as [|x a IH]; destruct b as [|y b]; cbn; split; intros H; try discriminate; auto.
  - apply andb_true_iff in H as [H1 H2]. apply Nat.eqb_eq in H1. apply IH in H2. now subst.
  - injection H as -> ->. rewrite Nat.eqb_refl. now apply IH.
Qed.
Lemma teqb_refl : forall a, teqb a a = true.
Proof. intros. now apply teqb_eq. Qed.
Lemma teqb_neq : forall a b, a <> b -> teqb a b = false.
Proof. intros a b H. destruct (teqb a b) eqn:E; [|reflexivity]. apply teqb_eq in E. congruence. Qed.

(** * Digits *)
Lemma unhex_digit : forall n, n < 16 -> unhex (hexdigit n) = Some n.
Proof. intros n H. do 16 (destruct n as [|n]; [reflexivity|]). lia. Qed.
Lemma hex_digits : forall w n c, In c (hex w n) -> unhex c <> None.
Proof.
  induction w as [|w IH]; intros n c H; [destruct H|]. cbn [hex] in H. apply in_app_or in H as [H|[<-|[]]]; eauto.
  rewrite unhex_digit; [discriminate|]. apply Nat.mod_upper_bound. lia.
Qed.
Lemma read_hex_app : forall a b acc s, read_hex (a + b) acc s =
  match read_hex a acc s with Some (acc, s) => read_hex b acc s | None => None end.
Proof.
  induction a as [|a IH]; intros b acc s; [reflexivity|]. cbn [Nat.add read_hex]. destruct s as [|c r]; [reflexivity|].
  destruct (unhex c); [apply IH|reflexivity].
Qed.
Lemma read_hex_hex : forall w n acc rest, n < 16 ^ w -> read_hex w acc (hex w n ++ rest) = Some (16 ^ w * acc + n, rest).
Proof.
  induction w as [|w IH]; intros n acc rest H.
  - cbn in *. f_equal. f_equal. lia.
  - replace (S w) with (w + 1) at 1 by lia. rewrite read_hex_app. cbn [hex]. rewrite <- app_assoc.
    rewrite Nat.pow_succ_r' in H. rewrite IH by (apply Nat.div_lt_upper_bound; lia).
    cbn [app read_hex]. rewrite unhex_digit by (apply Nat.mod_upper_bound; lia). f_equal. f_equal.
    rewrite Nat.pow_succ_r'. pose proof (Nat.div_mod n 16 ltac:(lia)). lia.
Qed.

Section R.
Variable printable : nat -> bool.

Lemma p2 : 16 ^ 2 = 256. Proof. reflexivity. Qed.
Lemma p4 : 16 ^ 4 = 256 * 256. Proof. rewrite <- p2, <- Nat.pow_add_r. f_equal. Qed.
Lemma p8 : 16 ^ 8 = (256 * 256) * (256 * 256). Proof. rewrite <- p4, <- Nat.pow_add_r. f_equal. Qed.

(** * Literals *)
Definition quotes (q : nat) : Prop := q = 39 \/ q = 34.
Lemma literal_step : forall f q c tail, quotes q -> c < 17 * (256 * 256) ->
  literal (S f) q (repr_char printable q c ++ tail) = option_map (fun p => (c :: fst p, snd p)) (literal f q tail).
Proof.
  intros f q c tail Q V.
  assert (NQ : (92 =? q) = false) by (apply Nat.eqb_neq; destruct Q; lia).
  assert (ESC : forall s e r, escape s = Some (e, r) -> literal (S f) q (92 :: s) = option_map (fun p => (e ++ fst p, snd p)) (literal f q r)).
  { intros s e r H. cbn [literal]. rewrite NQ, Nat.eqb_refl, H. reflexivity. }
  assert (HX : forall w a b r, escape (a :: hex w b ++ r) = option_map (fun p => ([fst p], snd p)) (read_hex w 0 (hex w b ++ r)) ->
     b < 16 ^ w -> b = c -> r = tail ->
     literal (S f) q (92 :: a :: hex w b ++ r) = option_map (fun p => (c :: fst p, snd p)) (literal f q tail)).
  { intros w a b r H L -> ->. rewrite read_hex_hex in H by auto. cbn [option_map fst snd] in H.
    rewrite Nat.mul_0_r in H. cbn [Nat.add] in H. rewrite (ESC _ _ _ H). reflexivity. }
  unfold repr_char.
  destruct ((c =? q) || (c =? 92)) eqn:E1.
  { cbn [app]. rewrite (ESC _ [c] tail); [reflexivity|]. apply orb_true_iff in E1.
    assert (H : c = 39 \/ c = 34 \/ c = 92) by (destruct Q, E1 as [E1|E1]; apply Nat.eqb_eq in E1; lia).
    destruct H as [-> |[-> | ->]]; reflexivity. }
  apply orb_false_iff in E1 as [Nq N92].
  destruct (Nat.eqb_spec c 9) as [->|N9]; [cbn [app]; now rewrite (ESC _ [9] tail)|].
  destruct (Nat.eqb_spec c 10) as [->|N10]; [cbn [app]; now rewrite (ESC _ [10] tail)|].
  destruct (Nat.eqb_spec c 13) as [->|N13]; [cbn [app]; now rewrite (ESC _ [13] tail)|].
  destruct ((c <? 32) || (c =? 127)) eqn:E2.
  { change ((92 :: 120 :: hex 2 c) ++ tail) with (92 :: 120 :: (hex 2 c ++ tail)). apply HX; auto. rewrite p2.
    apply orb_true_iff in E2 as [E2|E2]; [apply Nat.ltb_lt in E2|apply Nat.eqb_eq in E2]; lia. }
  apply orb_false_iff in E2 as [E2 E3]. apply Nat.ltb_ge in E2.
  assert (RAW : literal (S f) q ([c] ++ tail) = option_map (fun p => (c :: fst p, snd p)) (literal f q tail)).
  { cbn [app literal]. rewrite Nq, N92. replace (c =? 10) with false by (symmetry; apply Nat.eqb_neq; lia).
    replace (c =? 13) with false by (symmetry; apply Nat.eqb_neq; lia). replace (c =? 0) with false by (symmetry; apply Nat.eqb_neq; lia).
    reflexivity. }
  destruct (c <? 127) eqn:E4; [exact RAW|]. destruct (printable c); [exact RAW|].
  destruct (c <? 256) eqn:E5.
  { change ((92 :: 120 :: hex 2 c) ++ tail) with (92 :: 120 :: (hex 2 c ++ tail)). apply HX; auto. rewrite p2.
    now apply Nat.ltb_lt in E5. }
  destruct (c <? 256 * 256) eqn:E6.
  { change ((92 :: 117 :: hex 4 c) ++ tail) with (92 :: 117 :: (hex 4 c ++ tail)). apply HX; auto. rewrite p4.
    now apply Nat.ltb_lt in E6. }
  change ((92 :: 85 :: hex 8 c) ++ tail) with (92 :: 85 :: (hex 8 c ++ tail)).
  rewrite (ESC _ [c] tail); [reflexivity|]. unfold escape. cbn [Nat.eqb orb].
  rewrite read_hex_hex by (rewrite p8; lia). rewrite Nat.mul_0_r. cbn [Nat.add].
  assert (M : (c <? max_char) = true) by (apply Nat.ltb_lt; exact V). now rewrite M.
Qed.
Lemma literal_repr : forall s f q rest, quotes q -> valid_text s -> length s < f ->
  literal f q (flat_map (repr_char printable q) s ++ q :: rest) = Some (s, rest).
Proof.
  induction s as [|c s IH]; intros f q rest Q V L; cbn [length] in L; (destruct f as [|f]; [lia|]).
  - cbn [flat_map app literal]. now rewrite Nat.eqb_refl.
  - inversion V; subst. cbn [flat_map]. rewrite <- app_assoc, literal_step by auto. rewrite IH by (auto; lia). reflexivity.
Qed.
Lemma repr_char_len : forall q c, 1 <= length (repr_char printable q c).
Proof. intros. unfold repr_char. repeat match goal with |- context [if ?b then _ else _] => destruct b end; cbn; lia. Qed.
Lemma flat_len : forall q s, length s <= length (flat_map (repr_char printable q) s).
Proof. induction s as [|c s IH]; cbn; [lia|]. rewrite app_length. pose proof (repr_char_len q c). lia. Qed.
Lemma quote_ok : forall s, quotes (quote_for s).
Proof. intros s. unfold quote_for. destruct (_ && _); [right|left]; reflexivity. Qed.

(** * Lists *)
Lemma items_list : forall l f rest, Forall valid_text l -> length l < f ->
  items f (join_items (map (repr printable) l) ++ 93 :: rest) = Some (l, rest).
Proof.
  assert (LIT : forall s tail, valid_text s -> literal (length (flat_map (repr_char printable (quote_for s)) s ++ quote_for s :: tail)) (quote_for s)
     (flat_map (repr_char printable (quote_for s)) s ++ quote_for s :: tail) = Some (s, tail)).
  { intros s tail V. apply literal_repr; auto using quote_ok. rewrite app_length. cbn [length]. pose proof (flat_len (quote_for s) s). lia. }
  assert (SK : forall s tail, skip_space (repr printable s ++ tail) = repr printable s ++ tail).
  { intros s tail. unfold repr. cbn [app skip_space]. destruct (quote_ok s) as [-> | ->]; reflexivity. }
  assert (SK2 : forall s tail, skip_space (32 :: repr printable s ++ tail) = repr printable s ++ tail).
  { intros s tail. rewrite <- (SK s tail) at 2. reflexivity. }
  assert (STEP : forall s, forall f s0 tail, valid_text s -> skip_space s0 = repr printable s ++ tail ->
     items (S f) s0 = match skip_space tail with
        | [] => None
        | d :: r => if d =? 93 then Some ([s], r) else if d =? 44 then option_map (fun p => (s :: fst p, snd p)) (items f r) else None
        end).
  { intros s f s0 tail V H. cbn [items]. rewrite H. unfold repr. cbn [app].
    replace (quote_for s =? 93) with false by (destruct (quote_ok s) as [-> | ->]; reflexivity).
    replace ((quote_for s =? 39) || (quote_for s =? 34)) with true by (destruct (quote_ok s) as [-> | ->]; reflexivity).
    rewrite <- app_assoc. cbn [app]. rewrite LIT by auto. reflexivity. }
  assert (MAIN : forall l f rest s0, Forall valid_text l -> length l < f -> l <> [] ->
     skip_space s0 = join_items (map (repr printable) l) ++ 93 :: rest -> items f s0 = Some (l, rest)).
  { induction l as [|s l IH]; intros f rest s0 V L NE H; [congruence|]. cbn [length] in L. destruct f as [|f]; [lia|].
    inversion V; subst. destruct l as [|s' l].
    - cbn [map join_items] in H. rewrite (STEP s f s0 (93 :: rest)) by auto. reflexivity.
    - change (join_items (map (repr printable) (s :: s' :: l))) with
        (repr printable s ++ [44; 32] ++ join_items (map (repr printable) (s' :: l))) in H.
      rewrite <- !app_assoc in H. rewrite (STEP s f s0 _ ltac:(auto) H). cbn [app skip_space Nat.eqb orb].
      rewrite (IH f rest) with (s0 := 32 :: join_items (map (repr printable) (s' :: l)) ++ 93 :: rest);
        [reflexivity|auto|cbn in *; lia|discriminate|].
      assert (SJ : exists tl, join_items (map (repr printable) (s' :: l)) ++ 93 :: rest = repr printable s' ++ tl).
      { destruct l as [|s2 l]; [eexists; reflexivity|]. cbn [map join_items]. rewrite <- !app_assoc. eexists; reflexivity. }
      destruct SJ as [tl ->]. apply SK2. }
  intros l f rest V L. destruct l as [|s l].
  - destruct f; [lia|]. reflexivity.
  - apply MAIN; auto; [discriminate|].
    destruct l as [|s2 l]; cbn [map join_items]; rewrite <- ?app_assoc; apply SK.
Qed.
Lemma join_len : forall l, length l <= length (join_items (map (repr printable) l)).
Proof.
  induction l as [|s l IH]; [cbn; lia|]. destruct l as [|s2 l].
  - cbn [map join_items]. unfold repr. cbn. lia.
  - change (join_items (map (repr printable) (s :: s2 :: l))) with (repr printable s ++ [44; 32] ++ join_items (map (repr printable) (s2 :: l))).
    rewrite !app_length. cbn [length] in *. lia.
Qed.
Lemma hexdigit_nonzero : forall n, hexdigit n <> 0.
Proof. intros n. unfold hexdigit. destruct (n <? 10); lia. Qed.
Lemma hex_nonzero : forall w n, ~ In 0 (hex w n).
Proof.
  induction w as [|w IH]; intros n; cbn [hex]; [intros []|]. intros I. apply in_app_or in I as [I|[I|[]]]; [eapply IH; eauto|]. now apply hexdigit_nonzero in I.
Qed.
Lemma repr_char_nonzero : forall q c, quotes q -> ~ In 0 (repr_char printable q c).
Proof.
  intros q c Q. assert (E : forall a b w n, a <> 0 -> b <> 0 -> ~ In 0 (a :: b :: hex w n)) by (intros a b w n A B [I|[I|I]]; [congruence|congruence|now apply hex_nonzero in I]).
  unfold repr_char. destruct ((c =? q) || (c =? 92)) eqn:A.
  { apply orb_true_iff in A as [A|A]; apply Nat.eqb_eq in A; subst; intros [I|[I|[]]]; try discriminate. destruct Q; lia. }
  repeat match goal with |- ~ In 0 (if ?b then _ else _) => destruct b eqn:? end; try (apply E; discriminate); try (intros [I|[I|[]]]; discriminate);
    intros [I|[]]; subst c; discriminate.
Qed.
Lemma str_list_nonzero : forall l, existsb (Nat.eqb 0) (str_list printable l) = false.
Proof.
  intros l. apply not_true_is_false. intros H. apply existsb_exists in H as (x & I & E). apply Nat.eqb_eq in E. subst x.
  assert (R : forall s, ~ In 0 (repr printable s)).
  { intros s. unfold repr. pose proof (quote_ok s) as Q. intros [J|J]; [destruct Q; lia|]. apply in_app_or in J as [J|[J|[]]]; [|destruct Q; lia].
    apply in_flat_map in J as (c & _ & J). now apply repr_char_nonzero in J. }
  assert (J : forall l, (forall s, In s l -> ~ In 0 s) -> ~ In 0 (join_items l)).
  { clear. induction l as [|x [|y l] IH]; intros H; [intros []|apply H; now left|]. cbn [join_items]. intros I. apply in_app_or in I as [I|I]; [now apply (H x (or_introl eq_refl))|].
    destruct I as [I|[I|I]]; [discriminate|discriminate|]. revert I. apply IH. intros s S. apply H. now right. }
  destruct I as [I|I]; [discriminate|]. apply in_app_or in I as [I|[I|[]]]; [|discriminate]. revert I. apply J. intros s S. apply in_map_iff in S as (t & <- & _). apply R.
Qed.
Lemma roundtrip : forall l, Forall valid_text l -> literal_eval (str_list printable l) = Ok l.
Proof.
  intros l V. unfold literal_eval. rewrite str_list_nonzero. unfold str_list. cbn [skip_space Nat.eqb orb].
  rewrite items_list; [reflexivity|auto|]. rewrite app_length. cbn [length]. pose proof (join_len l). lia.
Qed.

(** * The history *)
Context {R : Type}.
Variable empty : R.
Notation add_history := (add_history printable empty).
Notation add_all := (add_all printable empty).
Notation hgroup := (@hgroup R).

Lemma tget_tput_same : forall k v (d : list (text * @hval R)), tget k (tput k v d) = Some v.
Proof.
  induction d as [|[k' v'] d IH]; cbn [tput tget]; [now rewrite teqb_refl|].
  destruct (teqb k k') eqn:E; cbn [tget]; rewrite E; auto.
Qed.
Lemma tget_tput_other : forall k k' v (d : list (text * @hval R)), k <> k' -> tget k (tput k' v d) = tget k d.
Proof.
  induction d as [|[k1 v1] d IH]; intros H; cbn [tput tget]; [now rewrite teqb_neq|].
  destruct (teqb k' k1) eqn:E; cbn [tget].
  - apply teqb_eq in E. subst. now rewrite teqb_neq.
  - now rewrite IH.
Qed.
Definition keys (d : list (text * @hval R)) := map fst d.
Lemma keys_tput : forall k v (d : list (text * @hval R)), NoDup (keys d) -> NoDup (keys (tput k v d)) /\ (forall x, In x (keys (tput k v d)) <-> x = k \/ In x (keys d)).
Proof.
  unfold keys. induction d as [|[k1 v1] d IH]; intros H; cbn [tput map fst].
  - split; [constructor; [intros []|constructor]|]. cbn. intuition auto.
  - cbn in H. apply NoDup_cons_iff in H as [H1 H2]. destruct (IH H2) as [A B]. destruct (teqb k k1) eqn:E; cbn [map fst In].
    + apply teqb_eq in E. subst. split; [now constructor|]. intuition auto.
    + split.
      * constructor; [|auto]. rewrite B. intros [->|X]; [rewrite teqb_refl in E; discriminate|tauto].
      * intros x. rewrite B. intuition auto.
Qed.
Lemma tget_fold : forall (l d : list (text * @hval R)) k, NoDup (keys l) ->
  tget k (fold_left (fun d kv => tput (fst kv) (snd kv) d) l d) = match tget k l with Some v => Some v | None => tget k d end.
Proof.
  unfold keys. induction l as [|[k1 v1] l IH]; intros d k N; cbn [fold_left tget fst snd]; [reflexivity|].
  cbn in N. apply NoDup_cons_iff in N as [N1 N2]. rewrite IH by auto. destruct (teqb k k1) eqn:E.
  - apply teqb_eq in E. subst. assert (X : tget k1 l = None).
    { clear -N1. induction l as [|[k2 v2] l IHl]; [reflexivity|]. cbn [tget]. cbn in N1.
      rewrite teqb_neq by (intros ->; tauto). apply IHl. tauto. }
    rewrite X. apply tget_tput_same.
  - destruct (tget k l); [reflexivity|]. apply tget_tput_other. intros ->. rewrite teqb_refl in E. discriminate.
Qed.

(** A history group with this order. *)
Definition hist_ok (g : hgroup) (order : list text) : Prop :=
  NoDup (keys (h_attrs g)) /\ (exists s, tget order_key (h_attrs g) = Some (HText s) /\ literal_eval s = Ok order) /\ Forall valid_text order.

Lemma history_ok : forall g order, hist_ok g order -> exists h, history g = Ok h /\ tget order_key h = Some (HOrder order) /\
  forall k v, k <> order_key -> tget k (h_attrs g) = Some v -> tget k h = Some v.
Proof.
  intros g order (N & (s & E & L) & V). unfold history. rewrite E, L. cbn [rbind]. eexists. split; [reflexivity|]. split.
  - apply tget_tput_same.
  - intros k v Hk Hv. rewrite tget_tput_other by auto. rewrite tget_fold by auto. now rewrite Hv.
Qed.
Definition given (rec : option R) : R := match rec with Some r => r | None => empty end.
Lemma add_ok : forall g order name rec, hist_ok g order -> name <> order_key -> valid_text name ->
  exists g', add_history name rec g = Ok g' /\ hist_ok g' (order ++ [name]) /\ h_groups g' = h_groups g /\
    tget name (h_attrs g') = Some (HRec (given rec)) /\
    forall k, k <> name -> k <> order_key -> tget k (h_attrs g') = tget k (h_attrs g).
Proof.
  intros g order name rec H Hn Vn. destruct (history_ok g order H) as (h & E & O & _).
  destruct H as (N & _ & V). unfold HistModel.add_history. rewrite (teqb_neq _ _ Hn), E. cbn [rbind]. rewrite O.
  eexists. split; [reflexivity|]. cbn [h_groups h_attrs]. split; [|split; [reflexivity|split]].
  - destruct (keys_tput order_key (HText (str_list printable (order ++ [name]))) (h_attrs g) N) as [N1 _].
    assert (V' : Forall valid_text (order ++ [name])) by (apply Forall_app; split; [auto|constructor; auto]).
    unfold hist_ok. cbn [h_attrs]. split; [apply keys_tput; auto|]. split; [|auto]. exists (str_list printable (order ++ [name])). split.
    + rewrite tget_tput_other by congruence. apply tget_tput_same.
    + now apply roundtrip.
  - apply tget_tput_same.
  - intros k K1 K2. now rewrite !tget_tput_other.
Qed.

Lemma accepted_cons : forall k r (calls : list (text * option R)), accepted ((k, r) :: calls) =
  if list_eq_dec Nat.eq_dec k order_key then accepted calls else (k, r) :: accepted calls.
Proof. intros. unfold accepted at 1. cbn [filter fst]. unfold order_key. destruct (list_eq_dec _ _ _); reflexivity. Qed.

Lemma all_ok : forall calls g order, hist_ok g order -> Forall (fun c => valid_text (fst c)) calls ->
  hist_ok (add_all calls g) (order ++ map fst (accepted calls)) /\
  h_groups (add_all calls g) = h_groups g /\
  forall k, k <> order_key -> tget k (h_attrs (add_all calls g)) =
    match last_record k calls with Some r => Some (HRec (given r)) | None => tget k (h_attrs g) end.
Proof.
  induction calls as [|[name rec] calls IH]; intros g order H V.
  - cbn. rewrite app_nil_r. auto.
  - inversion V; subst. cbn [fst] in *. rewrite accepted_cons. unfold HistModel.add_all. cbn [fold_left fst snd].
    change (fold_left _ calls ?x) with (add_all calls x).
    destruct (list_eq_dec Nat.eq_dec name order_key) as [->|Hn].
    + unfold HistModel.add_history at 1 2 3. rewrite teqb_refl.
      destruct (IH g order H ltac:(auto)) as (A & B & C). split; [exact A|split; [exact B|]].
      intros k Hk. rewrite C by auto. cbn [last_record]. destruct (last_record k calls); [reflexivity|].
      destruct (list_eq_dec Nat.eq_dec k order_key); [contradiction|reflexivity].
    + destruct (add_ok g order name rec H Hn ltac:(auto)) as (g' & -> & H' & G & T1 & T2).
      destruct (IH g' _ H' ltac:(auto)) as (A & B & C). cbn [map fst]. rewrite <- app_assoc in A. split; [exact A|].
      split; [congruence|]. intros k Hk. rewrite C by auto. cbn [last_record]. destruct (last_record k calls); [reflexivity|].
      destruct (list_eq_dec Nat.eq_dec k name) as [->|Hkn]; [exact T1|]. now apply T2.
Qed.
Lemma new_ok : hist_ok (new_history) [].
Proof.
  split; [constructor; [intros []|constructor]|]. split; [|constructor]. exists [91; 93]. split; reflexivity.
Qed.
End R.
