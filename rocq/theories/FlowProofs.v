(** Lemmas for the flow tasks. *)
From Coq Require Import String.
From Coq Require Import List Ascii Bool Arith ZArith Lia.
From Verif Require Import PyBase PyStr MemModel AttrModel GlobModel FlowModel FlowSpec.
Import ListNotations.
Open Scope list_scope.
Open Scope nat_scope.

(** * AccumulateList *)
Section Acc.
Context {A : Type}.
Lemma acc_run_some : forall k (inputs items : list A), length items < k ->
  exists outs rest, Blocks k (items ++ inputs) outs rest /\
    given (fst (acc_run (Some (Z.of_nat k)) items inputs)) = outs /\ snd (acc_run (Some (Z.of_nat k)) items inputs) = rest.
Proof.
  intros k. induction inputs as [|x inputs IH]; intros items L.
  - exists [], items. cbn. rewrite app_nil_r. repeat split; auto. intros b [].
  - cbn [acc_run]. unfold acc_next. destruct (Z.leb_spec (Z.of_nat k) (Z.of_nat (length (items ++ [x])))) as [H|H].
    + destruct (IH []) as (outs & rest & B & G & R); [cbn; lia|]. cbn [app] in B. destruct (acc_run (Some (Z.of_nat k)) [] inputs) as [os items'] eqn:E.
      cbn [fst snd] in *. exists ((items ++ [x]) :: outs), rest. split; [|split; [cbn [given]; now rewrite G|exact R]].
      destruct B as (B1 & B2 & B3). split; [cbn [concat]; rewrite <- app_assoc, <- B1, <- app_assoc; reflexivity|]. split; auto.
      intros b [<-|I]; auto. rewrite app_length in *. cbn [length] in *. lia.
    + destruct (IH (items ++ [x])) as (outs & rest & B & G & R); [lia|].
      destruct (acc_run (Some (Z.of_nat k)) (items ++ [x]) inputs) as [os items'] eqn:E. cbn [fst snd] in *.
      exists outs, rest. rewrite <- app_assoc in B. auto.
Qed.
Lemma acc_run_none : forall (inputs items : list A),
  given (fst (acc_run None items inputs)) = [] /\ snd (acc_run None items inputs) = items ++ inputs.
Proof.
  induction inputs as [|x inputs IH]; intros items; cbn [acc_run acc_next].
  - now rewrite app_nil_r.
  - specialize (IH (items ++ [x])). destruct (acc_run None (items ++ [x]) inputs) as [os items']. cbn [fst snd] in *.
    destruct IH as [G R]. split; [exact G|]. rewrite R, <- app_assoc. reflexivity.
Qed.
Lemma acc_run_length : forall g (inputs items : list A), length (fst (acc_run g items inputs)) = length inputs.
Proof.
  intros g. induction inputs as [|x inputs IH]; intros items; cbn [acc_run]; auto.
  destruct (acc_next g items x) as [o items']. specialize (IH items'). destruct (acc_run g items' inputs). cbn [fst length] in *. now rewrite IH.
Qed.
(** When the blocks come. *)
Lemma acc_run_when : forall k (inputs items : list A) i o, length items < k ->
  nth_error (fst (acc_run (Some (Z.of_nat k)) items inputs)) i = Some o ->
  (o <> None <-> (length items + S i) mod k = 0).
Proof.
  intros k. induction inputs as [|x inputs IH]; intros items i o L N; [destruct i; discriminate|].
  cbn [acc_run] in N. unfold acc_next in N. rewrite app_length in N. cbn [length] in N.
  destruct (Z.leb_spec (Z.of_nat k) (Z.of_nat (length items + 1))) as [H|H].
  - assert (K : k = length items + 1) by lia. specialize (IH []). destruct (acc_run (Some (Z.of_nat k)) [] inputs) as [os items'].
    cbn [fst] in *. destruct i as [|i].
    + injection N as <-. rewrite <- K, Nat.mod_same by lia. split; [auto|discriminate].
    + cbn [nth_error] in N. rewrite (IH i o) by (cbn; auto; lia). cbn [length].
      replace (length items + S (S i)) with (S i + 1 * k) by lia. rewrite Nat.mod_add by lia. reflexivity.
  - specialize (IH (items ++ [x])). rewrite app_length in IH. cbn [length] in IH. destruct (acc_run (Some (Z.of_nat k)) (items ++ [x]) inputs) as [os items'].
    cbn [fst] in *. destruct i as [|i].
    + injection N as <-. rewrite Nat.mod_small by lia. split; [congruence|lia].
    + cbn [nth_error] in N. rewrite (IH i o) by (auto; lia). replace (length items + 1 + S i) with (length items + S (S i)) by lia. reflexivity.
Qed.
Lemma acc_run_alone : forall k (inputs : list A), (k <= 1)%Z ->
  acc_run (Some k) [] inputs = (map (fun x => Some [x]) inputs, []).
Proof.
  intros k inputs H. induction inputs as [|x inputs IH]; [reflexivity|]. cbn [acc_run]. unfold acc_next. cbn [app length].
  destruct (Z.leb_spec k (Z.of_nat 1)); [|lia]. rewrite IH. reflexivity.
Qed.
Lemma blocks_unique : forall k (l : list A) o1 r1 o2 r2, Blocks k l o1 r1 -> Blocks k l o2 r2 -> o1 = o2 /\ r1 = r2.
Proof.
  intros k l o1. revert l. induction o1 as [|b o1 IH]; intros l r1 o2 r2 (E1 & F1 & L1) (E2 & F2 & L2).
  - destruct o2 as [|c o2]; [cbn in *; subst; auto|]. exfalso. cbn [concat app] in *. pose proof (F2 c (or_introl eq_refl)).
    apply (f_equal (@length A)) in E1, E2. rewrite !app_length in E2. cbn in E1. lia.
  - destruct o2 as [|c o2].
    + exfalso. pose proof (F1 b (or_introl eq_refl)). apply (f_equal (@length A)) in E1, E2. cbn [concat] in E1. rewrite !app_length in E1. cbn in E2. lia.
    + cbn [concat] in *. rewrite <- app_assoc in E1, E2. subst l.
      assert (Hb : length b = length c) by (rewrite (F1 b (or_introl eq_refl)), (F2 c (or_introl eq_refl)); reflexivity).
      assert (b = c /\ concat o1 ++ r1 = concat o2 ++ r2) as [-> E].
      { clear - E2 Hb. revert c Hb E2. generalize (concat o1 ++ r1) (concat o2 ++ r2). intros u v. induction b as [|x b IH]; intros [|y c] Hb E; cbn in *; try discriminate; [auto|].
        injection E as -> E. injection Hb as Hb. destruct (IH c Hb E) as [-> K]. auto. }
      destruct (IH (concat o1 ++ r1) r1 o2 r2) as [-> ->]; [split; [reflexivity|split; [intros; apply F1; now right|exact L1]]|split; [exact E|split; [intros; apply F2; now right|exact L2]]|auto].
Qed.
End Acc.

(** * Decimal numerals *)
Definition digit_val (c : ascii) : nat := nat_of_ascii c - 48.
Definition num_val (s : str) : nat := fold_left (fun v c => 10 * v + digit_val c) s 0.
Lemma digit_val_of : forall n, n < 10 -> digit_val (ascii_of_nat (48 + n)) = n.
Proof. intros n H. do 10 (destruct n as [|n]; [reflexivity|]). lia. Qed.
Lemma digits_val : forall fuel n acc, n < fuel ->
  fold_left (fun v c => 10 * v + digit_val c) (digits fuel n acc) 0 = fold_left (fun v c => 10 * v + digit_val c) acc n.
Proof.
  induction fuel as [|fuel IH]; intros n acc H; [lia|]. cbn [digits].
  destruct (Nat.ltb_spec n 10) as [L|L].
  - cbn [fold_left]. rewrite Nat.mul_0_r, Nat.add_0_l, digit_val_of by (apply Nat.mod_upper_bound; lia). now rewrite Nat.mod_small.
  - rewrite IH. 2:{ pose proof (Nat.div_lt n 10). lia. }
    cbn [fold_left]. rewrite digit_val_of by (apply Nat.mod_upper_bound; lia). f_equal. symmetry. apply Nat.div_mod. lia.
Qed.
Lemma decimal_inj : forall n m, decimal n = decimal m -> n = m.
Proof.
  intros n m H. apply (f_equal num_val) in H. unfold num_val, decimal in H. rewrite !digits_val in H by lia. exact H.
Qed.

(** * Loading *)
Section Load.
Context {C : Type}.
Variable load : str -> res C.
Variable tag_of : C -> option str.
Variable set_tag : str -> C -> C.
Definition tagged (f : str) (c : C) : C := match tag_of c with None => set_tag (stem f) c | Some _ => c end.
Lemma load_run_stop : forall n files ind, ind = length files -> forall r, In r (load_run load tag_of set_tag n files ind) -> r = Err PipelineStopIteration.
Proof.
  induction n as [|n IH]; intros files ind H r I; [destruct I|]. cbn [load_run] in I. unfold load_next in I. rewrite (proj2 (Nat.eqb_eq _ _) H) in I.
  destruct I as [<-|I]; [reflexivity|]. eauto.
Qed.
Lemma load_run_at : forall n files ind i, ind <= length files ->
  (forall j f, ind <= j -> j < ind + i -> nth_error files j = Some f -> exists c, load f = Ok c) -> i < n ->
  nth_error (load_run load tag_of set_tag n files ind) i =
  Some (match nth_error files (ind + i) with
        | None => Err PipelineStopIteration
        | Some f => match load f with Ok c => Ok (tagged f c) | Err e => Err e end
        end).
Proof.
  induction n as [|n IH]; intros files ind i L H Hn; [lia|]. cbn [load_run].
  destruct (Nat.eq_dec ind (length files)) as [E|E].
  - assert (N : nth_error files (ind + i) = None) by (apply nth_error_None; lia). rewrite N. unfold load_next. rewrite (proj2 (Nat.eqb_eq _ _) E).
    destruct i as [|i]; [reflexivity|]. cbn [nth_error]. destruct (nth_error (load_run load tag_of set_tag n files ind) i) as [r|] eqn:K.
    + f_equal. eapply load_run_stop; [exact E|]. eapply nth_error_In; eauto.
    + exfalso. apply nth_error_None in K. assert (LL : forall m k, length (load_run load tag_of set_tag m files k) = m).
      { clear. induction m as [|m IH]; intros k; cbn [load_run]; auto. destruct (load_next load tag_of set_tag files k). cbn [length]. now rewrite IH. }
      rewrite LL in K. lia.
  - unfold load_next. rewrite (proj2 (Nat.eqb_neq _ _) E). destruct (nth_error files ind) as [f|] eqn:F; [|apply nth_error_None in F; lia].
    destruct i as [|i].
    + rewrite Nat.add_0_r, F. destruct (load f); reflexivity.
    + destruct (H ind f) as [c Hc]; [lia|lia|exact F|]. rewrite Hc. cbn [nth_error].
      replace (ind + S i) with (S ind + i) by lia. apply IH; [lia| |lia]. intros j g J1 J2. apply H; lia.
Qed.

(** * Selecting *)
Variable label : C -> str.
Lemma key_eqb_eq : forall a b, key_eqb a b = true <-> a = b.
Proof.
  intros [n|s] [m|t]; cbn; split; intros H; try discriminate.
  - apply Nat.eqb_eq in H. now subst.
  - injection H as ->. apply Nat.eqb_refl.
  - apply seqb_eq in H. now subst.
  - injection H as ->. apply seqb_refl.
Qed.
Lemma key_eqb_refl : forall a, key_eqb a a = true.
Proof. intros a. now apply key_eqb_eq. Qed.
Lemma kget_put_same : forall k (c : C) d, kget k (kput k c d) = Some c.
Proof.
  intros k c d. unfold kget, kput. destruct (existsb (fun e => key_eqb k (fst e)) d) eqn:E.
  - induction d as [|[k' c'] d IH]; [discriminate|]. cbn [map find existsb fst] in *. destruct (key_eqb k k') eqn:K.
    + cbn [fst]. rewrite key_eqb_refl. reflexivity.
    + cbn [fst]. rewrite K. cbn in E. auto.
  - induction d as [|[k' c'] d IH]; cbn [app find existsb fst] in *.
    + now rewrite key_eqb_refl.
    + apply orb_false_iff in E as [K E]. rewrite K. auto.
Qed.
Lemma kget_put_other : forall k k' (c : C) d, k <> k' -> kget k (kput k' c d) = kget k d.
Proof.
  intros k k' c d H. assert (Hk : key_eqb k k' = false) by (destruct (key_eqb k k') eqn:E; auto; apply key_eqb_eq in E; contradiction).
  unfold kget, kput. destruct (existsb (fun e => key_eqb k' (fst e)) d) eqn:E; clear E.
  - f_equal. induction d as [|[j x] d IH]; [reflexivity|]. cbn [map find fst] in *. destruct (key_eqb k' j) eqn:K; cbn [fst].
    + apply key_eqb_eq in K. subst j. rewrite Hk. exact IH.
    + destruct (key_eqb k j) eqn:J; [reflexivity|exact IH].
  - f_equal. induction d as [|[j x] d IH]; cbn [app find fst]; [now rewrite Hk|]. destruct (key_eqb k j); [reflexivity|exact IH].
Qed.
(** By position. *)
Lemma collect_index : forall files ff d cs, (forall e, In e d -> exists n, fst e = KIndex n /\ n < ff) ->
  Forall2 (fun f c => load f = Ok c) files cs ->
  exists d', collect load label false ff files d = Ok d' /\ length d' = length d + length files /\
    (forall n, n < ff -> kget (KIndex n) d' = kget (KIndex n) d) /\
    forall i c, nth_error cs i = Some c -> kget (KIndex (ff + i)) d' = Some c.
Proof.
  induction files as [|f files IH]; intros ff d cs D F; inversion F as [|? c ? cs' Hc F']; subst; cbn [collect].
  - exists d. cbn [length]. repeat split; auto; try lia. intros [|i] c E; discriminate.
  - rewrite Hc. assert (E : existsb (fun e => key_eqb (KIndex ff) (fst e)) d = false).
    { apply not_true_iff_false. intros K. apply existsb_exists in K as (e & I & K). destruct (D e I) as (n & En & L). rewrite En in K.
      apply key_eqb_eq in K. injection K as ->. lia. }
    destruct (IH (S ff) (kput (KIndex ff) c d) cs') as (d' & R & L & P1 & P2); auto.
    + unfold kput. rewrite E. intros e I. apply in_app_or in I as [I|[<-|[]]].
      * destruct (D e I) as (n & ? & ?). exists n. split; [auto|lia].
      * exists ff. cbn. auto.
    + exists d'. split; [exact R|]. split; [rewrite L; unfold kput; rewrite E, app_length; cbn [length]; lia|]. split.
      * intros n Hn. rewrite P1 by lia. apply kget_put_other. intros K. injection K as ->. lia.
      * intros [|i] c0 N.
        -- injection N as <-. rewrite Nat.add_0_r, P1 by lia. apply kget_put_same.
        -- cbn in N. rewrite <- (P2 i c0 N). f_equal. f_equal. lia.
Qed.
(** By label: the last file with the label. *)
Lemma collect_label : forall files ff d cs, Forall2 (fun f c => load f = Ok c) files cs ->
  exists d', collect load label true ff files d = Ok d' /\
    forall s, (forall c, LastWith (fun c => label c = s) cs c -> kget (KLabel s) d' = Some c) /\
              ((forall c, In c cs -> label c <> s) -> kget (KLabel s) d' = kget (KLabel s) d).
Proof.
  induction files as [|f files IH]; intros ff d cs F; inversion F as [|? c ? cs' Hc F']; subst; cbn [collect].
  - exists d. split; [reflexivity|]. intros s. split; [|auto]. intros c (a & b & E & _). destruct a; discriminate.
  - rewrite Hc. destruct (IH (S ff) (kput (KLabel (label c)) c d) cs' F') as (d' & R & P). exists d'. split; [exact R|].
    intros s. destruct (P s) as [P1 P2]. split.
    + intros c0 (a & b & E & L & N). destruct a as [|y a].
      * injection E as -> ->. rewrite P2.
        -- rewrite L. apply kget_put_same.
        -- intros c I. auto.
      * injection E as -> ->. apply P1. exists a, b. auto.
    + intros N. rewrite P2 by (intros; apply N; now right). apply kget_put_other. intros K. injection K as K. apply (N c); auto. now left.
Qed.
Lemma select_run_cycle : forall collection, length collection <> 0 ->
  (forall n, n < length collection -> exists c, kget (KIndex n) collection = Some c) ->
  forall inputs count i, i < length inputs ->
  nth_error (select_run label false collection count inputs) i = Some (Ok (kget (KIndex ((count + i) mod length collection)) collection)).
Proof.
  intros d Hd Hall. induction inputs as [|x inputs IH]; intros count i Hi; [cbn in Hi; lia|]. cbn [select_run].
  assert (S0 : forall count, exists c, kget (KIndex (count mod length d)) d = Some c) by (intros; apply Hall, Nat.mod_upper_bound; exact Hd).
  assert (S1 : select label false d count x = Ok (kget (KIndex (count mod length d)) d)).
  { unfold select. destruct (length d) as [|l] eqn:E; [congruence|]. destruct (S0 count) as [c Hc]. rewrite Hc. reflexivity. }
  rewrite S1. destruct i as [|i].
  - rewrite Nat.add_0_r. reflexivity.
  - cbn [nth_error]. destruct (S0 count) as [c Hc]. rewrite Hc. rewrite IH by (cbn in Hi; lia). replace (count + S i) with (S count + i) by lia. reflexivity.
Qed.
(** * Saving *)
Lemma save_run_at : forall root xs count i x, nth_error xs i = Some x ->
  nth_error (save_run tag_of root count xs) i =
  Some (root ++ s_ "_" ++ (match tag_of x with Some t => t | None => decimal (count + length (filter (fun y => match tag_of y with None => true | _ => false end) (firstn i xs))) end) ++ s_ ".h5").
Proof.
  intros root. induction xs as [|y xs IH]; intros count i x N; [destruct i; discriminate|]. cbn [save_run]. unfold save_next.
  destruct i as [|i].
  - injection N as ->. destruct (tag_of x) eqn:T; cbn [nth_error firstn filter length]; [reflexivity|]. now rewrite Nat.add_0_r.
  - cbn in N. cbn [firstn filter]. destruct (tag_of y) eqn:T; cbn [nth_error]; rewrite (IH _ i x N); destruct (tag_of x); auto.
    do 5 f_equal. cbn [length]. lia.
Qed.
End Load.
