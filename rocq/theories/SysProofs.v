(** Proofs about SysModel.v. *)
From Coq Require Import String.
From Coq Require Import List Ascii Bool Arith ZArith Lia.
From Verif Require Import PyBase PyStr SysModel SysSpec.
Import ListNotations.
Open Scope list_scope.
Open Scope nat_scope.

(** ** Finding text *)

Lemma starts_with_some : forall pat s r, starts_with pat s = Some r <-> s = pat ++ r.
Proof.
  induction pat as [|p pat IH]; intros s r.
  - destruct s; cbn; split; congruence.
  - destruct s as [|c s]; cbn.
    + split; discriminate.
    + destruct (Ascii.eqb_spec p c) as [->|N].
      * rewrite IH. split; congruence.
      * split; congruence.
Qed.

Lemma starts_with_none : forall pat s, starts_with pat s = None <-> forall r, s <> pat ++ r.
Proof.
  intros pat s. split.
  - intros H r E. apply starts_with_some in E. congruence.
  - intros H. destruct (starts_with pat s) as [r|] eqn:E; [|reflexivity].
    apply starts_with_some in E. now destruct (H r).
Qed.

Lemma after_none : forall pat s, pat <> [] -> after pat s = None <-> absent pat s.
Proof.
  intros pat s NE. induction s as [|c s IH]; cbn [after].
  - destruct (starts_with pat []) eqn:E.
    + apply starts_with_some in E. destruct pat; [congruence|discriminate].
    + split; [|reflexivity]. intros _ a b H. destruct a; [|discriminate]. destruct pat; [congruence|discriminate].
  - destruct (starts_with pat (c :: s)) eqn:E.
    + apply starts_with_some in E. split; [discriminate|]. intros H. exfalso. now apply (H [] s0).
    + rewrite IH. rewrite starts_with_none in E. split.
      * intros H a b X. destruct a as [|y a]; [now apply (E b)|].
        cbn in X. injection X as -> X. now apply (H a b).
      * intros H a b ->. now apply (H (c :: a) b).
Qed.

Lemma removelast_length : forall (A : Type) (l : list A), l <> [] -> S (length (removelast l)) = length l.
Proof.
  intros A l H. destruct (exists_last H) as [l' [a ->]]. rewrite removelast_last, app_length. cbn. lia.
Qed.

Lemma after_first : forall pat a rest, pat <> [] -> first_at pat a -> after pat (a ++ pat ++ rest) = Some rest.
Proof.
  intros pat a rest NE. induction a as [|c a IH]; intros F.
  - cbn [List.app]. assert (E : starts_with pat (pat ++ rest) = Some rest) by now apply starts_with_some.
    destruct (pat ++ rest); cbn [after]; now rewrite E.
  - cbn [List.app after].
    destruct (starts_with pat (c :: a ++ pat ++ rest)) as [r|] eqn:E.
    + exfalso. apply starts_with_some in E.
      destruct (exists_last NE) as [p' [x EP]].
      assert (L : length pat <= length (c :: a ++ removelast pat)).
      { cbn [length]. rewrite app_length. pose proof (removelast_length _ _ NE). lia. }
      assert (E2 : firstn (length pat) (c :: a ++ pat ++ rest) = pat).
      { rewrite E.
        rewrite firstn_app, Nat.sub_diag, firstn_O, app_nil_r. apply firstn_all. }
      assert (E3 : c :: a ++ pat ++ rest = (c :: a ++ removelast pat) ++ x :: rest).
      { rewrite EP at 1. rewrite EP, removelast_last. cbn. f_equal. rewrite <- !app_assoc. reflexivity. }
      rewrite E3, firstn_app in E2.
      replace (length pat - length (c :: a ++ removelast pat)) with 0 in E2 by lia.
      rewrite firstn_O, app_nil_r in E2.
      apply (F [] (skipn (length pat) (c :: a ++ removelast pat))).
      cbn [List.app]. rewrite <- E2 at 2. symmetry. apply (firstn_skipn (length pat) (c :: a ++ removelast pat)).
    + apply IH. intros u v X. apply (F (c :: u) v). cbn. now rewrite X.
Qed.

Lemma to_eol_line : forall l rest, ~ In newline l -> to_eol (l ++ newline :: rest) = l.
Proof.
  induction l as [|c l IH]; intros rest H; cbn [List.app to_eol]; [reflexivity|].
  destruct (Ascii.eqb_spec c newline) as [->|N]; [exfalso; apply H; now left|].
  rewrite IH; [reflexivity|]. intros I. apply H. now right.
Qed.

(** ** Blanks *)

Lemma visible_space : forall c, visible c -> is_space c = false.
Proof.
  intros c H. unfold visible in H. unfold is_space.
  cbv zeta. rewrite (proj2 (Nat.leb_gt (nat_of_ascii c) 13)) by lia.
  rewrite (proj2 (Nat.leb_gt (nat_of_ascii c) 32)) by lia. now rewrite !andb_false_r.
Qed.

Lemma lstrip_visible : forall c s, is_space c = false -> lstrip (c :: s) = c :: s.
Proof. intros c s H. cbn. now rewrite H. Qed.

Lemma lstrip_blanks : forall b s, forallb is_space b = true -> lstrip (b ++ s) = lstrip s.
Proof.
  induction b as [|c b IH]; intros s H; [reflexivity|]. cbn in H. apply andb_true_iff in H as [H1 H2].
  cbn [List.app lstrip]. rewrite H1. now apply IH.
Qed.

Lemma forallb_rev : forall (A : Type) (f : A -> bool) l, forallb f (rev l) = forallb f l.
Proof.
  intros A f l. induction l as [|a l IH]; [reflexivity|]. cbn. rewrite forallb_app, IH. cbn.
  now rewrite andb_true_r, andb_comm.
Qed.

Lemma strip_visible : forall b1 p b2, forallb is_space b1 = true -> forallb is_space b2 = true ->
  path_like p -> strip (b1 ++ p ++ b2) = p.
Proof.
  intros b1 p b2 H1 H2 [NE V]. unfold strip. rewrite lstrip_blanks by exact H1.
  assert (E1 : lstrip (p ++ b2) = p ++ b2).
  { destruct p as [|c p]; [congruence|]. cbn [List.app]. apply lstrip_visible, visible_space, V. now left. }
  rewrite E1, rev_app_distr, lstrip_blanks by (now rewrite forallb_rev).
  destruct (exists_last NE) as [p' [x ->]]. rewrite rev_app_distr. cbn [rev List.app].
  rewrite lstrip_visible by (apply visible_space, V, in_or_app; right; now left).
  cbn [rev]. now rewrite rev_involutive.
Qed.

(** ** Numbers *)

Lemma digit_ascii : forall d, d < 10 -> digit (ascii_of_nat (48 + d)) = Some (Z.of_nat d).
Proof. intros d H. do 10 (destruct d as [|d]; [reflexivity|]). lia. Qed.

Lemma digits_z_written : forall ds acc, (forall d, In d ds -> d < 10) ->
  digits_z acc (written ds) = Some (acc * 10 ^ Z.of_nat (length ds) + number ds)%Z.
Proof.
  induction ds as [|d ds IH]; intros acc H.
  - cbn. f_equal. lia.
  - change (written (d :: ds)) with (ascii_of_nat (48 + d) :: written ds). cbn [digits_z].
    rewrite digit_ascii by (apply H; now left). rewrite IH by (intros; apply H; now right). f_equal.
    cbn [number]. replace (Z.of_nat (length (d :: ds))) with (Z.of_nat (length ds) + 1)%Z by (cbn [length]; lia).
    rewrite Z.pow_add_r by lia. rewrite Z.pow_1_r. ring.
Qed.

Lemma written_visible : forall ds, digit_list ds -> path_like (written ds).
Proof.
  intros ds [NE V]. split.
  - destruct ds; [congruence|discriminate].
  - intros c I. apply in_map_iff in I as [d [<- I]]. apply V in I. unfold visible.
    rewrite nat_ascii_embedding by lia. lia.
Qed.

Lemma py_int_written : forall b1 b2 ds, forallb is_space b1 = true -> forallb is_space b2 = true ->
  digit_list ds -> py_int (b1 ++ written ds ++ b2) = Some (number ds).
Proof.
  intros b1 b2 ds H1 H2 D. unfold py_int. rewrite strip_visible by (auto using written_visible).
  destruct D as [NE V]. destruct ds as [|d ds]; [congruence|].
  assert (L : d < 10) by (apply V; now left).
  change (written (d :: ds)) with (ascii_of_nat (48 + d) :: written ds).
  assert (A1 : Ascii.eqb (ascii_of_nat (48 + d)) "-" = false)
    by (do 10 (destruct d as [|d]; [reflexivity|]); lia).
  assert (A2 : Ascii.eqb (ascii_of_nat (48 + d)) "+" = false)
    by (do 10 (destruct d as [|d]; [reflexivity|]); lia).
  cbv beta iota. rewrite A1, A2. change (ascii_of_nat (48 + d) :: written ds) with (written (d :: ds)).
  rewrite digits_z_written by exact V. f_equal.
Qed.

(** ** Sums *)

Lemma zsum_total : forall (A : Type) (f : A -> Z) l, zsum (map f l) = total f l.
Proof. intros A f l. induction l; cbn; [reflexivity|]. unfold zsum in *. now rewrite IHl. Qed.

Lemma total_ext : forall (A : Type) (f g : A -> Z) l, (forall a, In a l -> f a = g a) -> total f l = total g l.
Proof. intros A f g l H. induction l; cbn; [reflexivity|]. rewrite IHl, H; auto using in_eq, in_cons. Qed.

Lemma total_le : forall (A : Type) (f g : A -> Z) l, (forall a, In a l -> (f a <= g a)%Z) -> (total f l <= total g l)%Z.
Proof.
  intros A f g l H. induction l as [|a l IH]; cbn; [lia|].
  pose proof (H a (in_eq _ _)). specialize (IH (fun x I => H x (in_cons _ _ _ I))). lia.
Qed.

Lemma total_const : forall (A : Type) (k : Z) (l : list A), total (fun _ => k) l = (k * Z.of_nat (length l))%Z.
Proof.
  intros A k l. induction l as [|a l IH]; [cbn; lia|].
  change (k + total (fun _ => k) l = k * Z.of_nat (S (length l)))%Z. rewrite IH, Nat2Z.inj_succ. ring.
Qed.

Lemma total_add : forall (A : Type) (f g : A -> Z) l, total (fun a => f a + g a)%Z l = (total f l + total g l)%Z.
Proof. intros A f g l. induction l; cbn; [reflexivity|]. rewrite IHl. ring. Qed.

(** ** Messages *)

Lemma wait_close_app : forall pre post, Forall (fun m => m <> Close) pre -> wait_close (pre ++ Close :: post) = Some post.
Proof.
  induction pre as [|m pre IH]; intros post H; [reflexivity|]. inversion H; subst.
  destruct m; [congruence|]. cbn. auto.
Qed.

Lemma wait_close_none : forall l, Forall (fun m => m <> Close) l -> wait_close l = None.
Proof. induction l as [|m l IH]; intros H; [reflexivity|]. inversion H; subst. destruct m; [congruence|]. cbn; auto. Qed.

Lemma existsb_In : forall r l, existsb (Nat.eqb r) l = true <-> In r l.
Proof.
  intros r l. rewrite existsb_exists. split.
  - intros [x [I E]]. apply Nat.eqb_eq in E. now subst.
  - intros I. exists r. split; [exact I|apply Nat.eqb_refl].
Qed.

Lemma filter_one : forall P size r, r < size ->
  filter (fun m : nat * message => fst m =? r) (map (fun i => (i, Close)) (filter P (seq 0 size)))
  = if P r then [(r, Close)] else [].
Proof.
  intros P size r L.
  assert (H : forall n a, filter (fun m : nat * message => fst m =? r) (map (fun i => (i, Close)) (filter P (seq a n)))
              = if (a <=? r) && (r <? a + n) then (if P r then [(r, Close)] else []) else []).
  { induction n as [|n IH]; intros a; cbn [seq filter].
    - destruct (Nat.leb_spec a r), (Nat.ltb_spec r (a + 0)); cbn [andb map filter]; try reflexivity; lia.
    - specialize (IH (S a)). destruct (Nat.eq_dec a r) as [->|N].
      + assert (E : (r <=? r) && (r <? r + S n) = true).
        { apply andb_true_iff. split; [apply Nat.leb_refl|apply Nat.ltb_lt; lia]. }
        rewrite E. replace ((S r <=? r) && (r <? S r + n)) with false in IH
          by (destruct (Nat.leb_spec (S r) r); [lia|reflexivity]).
        destruct (P r); cbn [map filter fst]; [rewrite Nat.eqb_refl|]; now rewrite IH.
      + assert (E : (a <=? r) && (r <? a + S n) = (S a <=? r) && (r <? S a + n)).
        { destruct (Nat.leb_spec a r), (Nat.leb_spec (S a) r), (Nat.ltb_spec r (a + S n)), (Nat.ltb_spec r (S a + n));
            cbn; try reflexivity; lia. }
        rewrite E, <- IH. destruct (P a); cbn [map filter fst]; [|reflexivity].
        now rewrite (proj2 (Nat.eqb_neq a r) N). }
  rewrite H. cbn [Nat.leb andb Nat.add]. now rewrite (proj2 (Nat.ltb_lt r size) L).
Qed.

Lemma inbox_close : forall aprocs size r, r < size ->
  inbox (close aprocs size 0) r = if existsb (Nat.eqb r) aprocs then [] else [Close].
Proof.
  intros aprocs size r L. unfold inbox, close. cbn [Nat.eqb]. rewrite filter_one by exact L.
  now destruct (existsb (Nat.eqb r) aprocs).
Qed.
Lemma inbox_app : forall a b r, inbox (a ++ b) r = inbox a r ++ inbox b r.
Proof. intros. unfold inbox. now rewrite filter_app, map_app. Qed.
