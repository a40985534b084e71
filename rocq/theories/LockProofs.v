From Coq Require Import String.
From Coq Require Import List Ascii Bool Arith Lia.
From Verif Require Import PyBase PyStr LockModel LockSpec.
Import ListNotations.
Open Scope list_scope.

(** *** Names *)
Lemma dot_noslash : forall f, ~ In slash f -> ~ In slash (dot :: f).
Proof. intros f H [E|E]; [discriminate|contradiction]. Qed.

Lemma tail_path_join : forall a b, ~ In slash b -> b <> [] -> tail_of slash (path_join a b) = b.
Proof.
  intros a b H N. unfold path_join. destruct (startswith [slash] b) eqn:E.
  { apply startswith_spec in E as (t & ->). exfalso. apply H. left. reflexivity. }
  destruct (rev a) as [|x r] eqn:ER; [apply tail_of_none, H|].
  assert (EA : a = rev r ++ [x]) by (rewrite <- (rev_involutive a), ER; reflexivity).
  destruct (ceqb x slash) eqn:EX.
  - apply ceqb_eq in EX. subst x. rewrite EA, <- app_assoc. cbn [app]. apply tail_of_app, H.
  - apply tail_of_app, H.
Qed.

Lemma tail_tmpfile : forall f, tail_of slash (tmpfile f) = dot :: tail_of slash f.
Proof.
  intros f. unfold tmpfile, path_split. apply tail_path_join; [|discriminate].
  apply dot_noslash, tail_of_noslash.
Qed.
Lemma tail_app_noslash : forall a b, ~ In slash b -> tail_of slash (a ++ b) = tail_of slash a ++ b.
Proof.
  induction a as [|x a IH]; intros b H; [cbn [app tail_of]; apply tail_of_none, H|].
  cbn [app tail_of]. change (x :: a ++ b) with ((x :: a) ++ b). rewrite existsb_app.
  assert (E : existsb (ceqb slash) b = false).
  { destruct (existsb (ceqb slash) b) eqn:E; [|reflexivity]. apply existsb_ceqb in E. contradiction. }
  rewrite E, orb_false_r. destruct (existsb (ceqb slash) (x :: a)); [apply IH, H|reflexivity].
Qed.
Lemma tail_lockfile : forall f, tail_of slash (lockfile f) = dot :: tail_of slash f ++ s_ ".lock".
Proof.
  intros f. unfold lockfile. rewrite tail_app_noslash, tail_tmpfile; [reflexivity|].
  cbn. intuition discriminate.
Qed.

Lemma names_distinct : forall f, tmpfile f <> f /\ lockfile f <> f /\ lockfile f <> tmpfile f.
Proof.
  intros f. repeat split; intros E.
  - apply (f_equal (fun s => length (tail_of slash s))) in E. rewrite tail_tmpfile in E. cbn in E. lia.
  - apply (f_equal (fun s => length (tail_of slash s))) in E. rewrite tail_lockfile in E.
    cbn [length] in E. rewrite app_length in E. cbn in E. lia.
  - apply (f_equal (@length ascii)) in E. unfold lockfile in E. rewrite app_length in E. cbn in E. lia.
Qed.

Lemma tmpfile_plain : forall f, ~ In slash f -> tmpfile f = dot :: f.
Proof.
  intros f H. unfold tmpfile, path_split. rewrite (tail_of_none _ _ H). unfold head_of.
  rewrite (tail_of_none _ _ H), Nat.sub_diag. cbn [firstn forallb]. reflexivity.
Qed.

Lemma names_private : forall f g, f <> g -> ~ In slash f -> ~ In slash g ->
  (forall t, f <> dot :: t) -> (forall t, g <> dot :: t) ->
  (forall t, f <> t ++ s_ ".lock") -> (forall t, g <> t ++ s_ ".lock") ->
  forall n, In n [f; tmpfile f; lockfile f] -> In n [g; tmpfile g; lockfile g] -> False.
Proof.
  intros f g Hne Sf Sg Df Dg Lf Lg n H1 H2. unfold lockfile in *.
  rewrite (tmpfile_plain f Sf) in H1. rewrite (tmpfile_plain g Sg) in H2. cbn [app] in *.
  destruct H1 as [<-|[<-|[<-|[]]]]; destruct H2 as [H2|[H2|[H2|[]]]].
  - congruence.
  - apply (Df g). congruence.
  - apply (Df (g ++ s_ ".lock")). congruence.
  - apply (Dg f). congruence.
  - congruence.
  - apply (f_equal (@tl ascii)) in H2. cbn [tl] in H2. apply (Lf g). symmetry. exact H2.
  - apply (Dg (f ++ s_ ".lock")). congruence.
  - apply (f_equal (@tl ascii)) in H2. cbn [tl] in H2. apply (Lg f). exact H2.
  - apply (f_equal (@tl ascii)) in H2. cbn [tl] in H2. apply app_inv_tail in H2. congruence.
Qed.

(** *** Traces *)
Local Opaque tmpfile lockfile.
Lemma upd_same : forall s p c, upd s p c p = c.
Proof. intros. unfold upd. rewrite seqb_refl. reflexivity. Qed.
Lemma upd_other : forall s p c q, q <> p -> upd s p c q = s q.
Proof. intros s p c q H. unfold upd. apply seqb_neq in H. rewrite H. reflexivity. Qed.

(** The body only touches the temporary file. *)
Lemma run_body : forall f body s,
  let '(t, e) := run s (map (body_op f) body) in
  let s' := last_state s t in
  (forall x, In x t -> forall q, q <> tmpfile f -> x q = s q)
  /\ (forall q, q <> tmpfile f -> s' q = s q)
  /\ (BodyFails (s (tmpfile f)) body -> t = [] /\ e = Some FileNotFoundError)
  /\ (~ BodyFails (s (tmpfile f)) body -> e = None /\ s' (tmpfile f) = contents (s (tmpfile f)) body
       /\ (body <> [] -> s' (tmpfile f) <> None)).
Proof.
  intros f body. induction body as [|w body IH]; intros s.
  - cbn. split; [contradiction|]. split; [reflexivity|].
    split; [intros (_ & x & t & H); discriminate|]. intros _. split; [reflexivity|]. split; [reflexivity|congruence].
  - cbn [map run].
    destruct (step s (body_op f w)) as [s1|e] eqn:ES.
    + assert (H1 : (forall q, q <> tmpfile f -> s1 q = s q) /\ s1 (tmpfile f) <> None
                   /\ contents (s (tmpfile f)) (w :: body) = contents (s1 (tmpfile f)) body
                   /\ ~ BodyFails (s (tmpfile f)) (w :: body)).
      { destruct w as [|x]; cbn [body_op step] in ES.
        - injection ES as <-. split; [intros q Hq; apply upd_other, Hq|]. rewrite upd_same.
          split; [discriminate|]. split; [reflexivity|]. intros (_ & x & t & H). discriminate.
        - destruct (s (tmpfile f)) as [c|] eqn:EC; [|discriminate]. injection ES as <-.
          split; [intros q Hq; apply upd_other, Hq|]. rewrite upd_same. split; [discriminate|].
          split; [reflexivity|]. intros (H & _). discriminate. }
      destruct H1 as (O1 & N1 & C1 & B1).
      specialize (IH s1). destruct (run s1 (map (body_op f) body)) as (t, e).
      destruct IH as (I1 & I2 & I3 & I4).
      assert (NB : ~ BodyFails (s1 (tmpfile f)) body) by (intros (H & _); contradiction).
      specialize (I4 NB). destruct I4 as (-> & I4 & I5).
      assert (EL : last_state s (s1 :: t) = last_state s1 t).
      { unfold last_state. destruct t; [reflexivity|]. cbn [last].
        clear. revert f0. induction t; intros; [reflexivity|]. cbn [last]. apply IHt. }
      cbv zeta. rewrite EL. split; [|split; [|split]].
      * intros x [<-|Hx] q Hq; [apply O1, Hq|]. rewrite (I1 x Hx q Hq). apply O1, Hq.
      * intros q Hq. rewrite (I2 q Hq). apply O1, Hq.
      * intros H. contradiction.
      * intros _. split; [reflexivity|]. split; [rewrite C1; exact I4|]. intros _.
        destruct body as [|w' body]; [|apply I5; discriminate]. cbn in I4. rewrite I4. exact N1.
    + assert (BF : BodyFails (s (tmpfile f)) (w :: body) /\ e = FileNotFoundError).
      { destruct w as [|x]; cbn [body_op step] in ES; [discriminate|].
        destruct (s (tmpfile f)) as [c|]; [discriminate|]. injection ES as <-.
        split; [|reflexivity]. split; [reflexivity|]. eexists. eexists. reflexivity. }
      destruct BF as (BF & ->). cbn. split; [contradiction|]. split; [reflexivity|].
      split; [intros _; split; reflexivity|]. intros H. contradiction.
Qed.

Lemma contents_fails : forall body, contents None body = None <-> body = [] \/ BodyFails None body.
Proof.
  intros body. split.
  - destruct body as [|[|x] body]; cbn [contents]; [left; reflexivity| |].
    + intros H. exfalso. revert H. generalize (@nil nat). induction body as [|[|y] body IH]; intros l; cbn [contents];
        [discriminate|apply IH|apply IH].
    + intros _. right. split; [reflexivity|]. eexists. eexists. reflexivity.
  - intros [->|(_ & x & t & ->)]; reflexivity.
Qed.
Lemma contents_some : forall body l, contents (Some l) body <> None.
Proof. induction body as [|[|y] body IH]; intros l; cbn [contents]; [discriminate|apply IH|apply IH]. Qed.
Lemma BodyFails_dec : forall c body, BodyFails c body \/ ~ BodyFails c body.
Proof.
  intros c body. destruct c; [right; intros (H & _); discriminate|].
  destruct body as [|[|x] body]; [right; intros (_ & x & t & H); discriminate|right; intros (_ & x & t & H); discriminate|].
  left. split; [reflexivity|]. eexists. eexists. reflexivity.
Qed.

Lemma with_lock_form : forall s preserve f body raises,
  exists t2 s2 r,
    Outcome s f body raises r
    /\ (forall x, In x t2 -> forall q, q <> tmpfile f -> x q = upd s (lockfile f) (Some []) q)
    /\ (forall q, q <> tmpfile f -> s2 q = upd s (lockfile f) (Some []) q)
    /\ s2 (tmpfile f) = contents (s (tmpfile f)) body
    /\ (t2 = [] -> s2 = upd s (lockfile f) (Some [])) /\ (t2 <> [] -> last t2 s2 = s2)
    /\ with_lock s true preserve f body raises =
       (let '(t3, e3) := run s2 (exit_ops true preserve (match r with Some _ => true | None => false end) f) in
        (upd s (lockfile f) (Some []) :: t2 ++ t3, match e3 with Some e => Some e | None => r end)).
Proof.
  intros s preserve f body raises. unfold with_lock. cbn [enter_ops run step].
  destruct (names_distinct f) as (D1 & D2 & D3).
  set (s1 := upd s (lockfile f) (Some [])). cbn [last_state last].
  assert (ET : s1 (tmpfile f) = s (tmpfile f)) by (apply upd_other; congruence).
  pose proof (run_body f body s1) as HB. unfold last_state. cbn [last].
  destruct (run s1 (map (body_op f) body)) as (t2, e2). cbv zeta in HB.
  destruct HB as (B1 & B2 & B3 & B4). unfold last_state in *. rewrite ET in *.
  set (r := match e2 with Some e => Some e | None => raises end).
  exists t2, (last t2 s1), r.
  split.
  { unfold Outcome, r. destruct (BodyFails_dec (s (tmpfile f)) body) as [F|F].
    - destruct (B3 F) as (_ & ->). left. split; [exact F|reflexivity].
    - destruct (B4 F) as (-> & _). right. split; [exact F|reflexivity]. }
  split; [exact B1|]. split; [exact B2|]. split.
  { destruct (BodyFails_dec (s (tmpfile f)) body) as [F|F].
    - destruct (B3 F) as (-> & _). cbn [last]. rewrite ET. destruct F as (-> & x & t & ->). reflexivity.
    - destruct (B4 F) as (_ & E & _). exact E. }
  split; [intros ->; reflexivity|]. split.
  { intros N. destruct t2; [contradiction|]. clear. revert f0. induction t2; intros; [reflexivity|].
    cbn [last] in *. destruct t2; [reflexivity|]. apply (IHt2 a). }
  cbn [app]. destruct (run (last t2 s1) _) as (t3, e3). reflexivity.
Qed.

Lemma Outcome_fun : forall s f body raises r r',
  Outcome s f body raises r -> Outcome s f body raises r' -> r = r'.
Proof.
  intros s f body raises r r' [(A & ->)|(A & ->)] [(B & ->)|(B & ->)]; try reflexivity; contradiction.
Qed.

Section Proof.
Context (s : fs) (preserve : bool) (f : str) (body : list wop) (raises : option exn).
Let out := with_lock s true preserve f body raises.

(** Everything about the trace, by outcome. *)
Lemma with_lock_facts : exists r, Outcome s f body raises r /\
  (forall x, In x (fst out) ->
     (x f = s f \/ (r = None /\ x f = contents (s (tmpfile f)) body /\ x f <> None))
     /\ (forall q, q <> f -> q <> tmpfile f -> q <> lockfile f -> x q = s q)
     /\ (x (tmpfile f) <> None -> x (lockfile f) <> None \/ (preserve = true /\ r <> None)))
  /\ (let e := last (fst out) s in
      match r with
      | None => contents (s (tmpfile f)) body <> None ->
                snd out = None /\ e f = contents (s (tmpfile f)) body
                /\ e (tmpfile f) = None /\ e (lockfile f) = None
      | Some x => preserve = true \/ contents (s (tmpfile f)) body <> None ->
                snd out = Some x /\ e f = s f
                /\ e (tmpfile f) = (if preserve then contents (s (tmpfile f)) body else None)
                /\ e (lockfile f) = None
      end)
  /\ (contents (s (tmpfile f)) body = None -> (r = None \/ preserve = false) ->
      snd out = Some FileNotFoundError /\ last (fst out) s (lockfile f) <> None).
Proof.
  destruct (with_lock_form s preserve f body raises) as (t2 & s2 & r & HR & HT & HS & HC & HE1 & HE2 & HO).
  destruct (names_distinct f) as (D1 & D2 & D3).
  set (s1 := upd s (lockfile f) (Some [])) in *.
  assert (S1 : forall q, q <> lockfile f -> s1 q = s q) by (intros q Hq; apply upd_other, Hq).
  assert (SL : s1 (lockfile f) = Some []) by apply upd_same.
  assert (S2L : s2 (lockfile f) = Some []) by (rewrite HS by congruence; exact SL).
  exists r. split; [exact HR|]. unfold out. rewrite HO. clear HO out.
  assert (HX : forall x, In x (s1 :: t2) ->
     x f = s f /\ (forall q, q <> f -> q <> tmpfile f -> q <> lockfile f -> x q = s q) /\ x (lockfile f) <> None).
  { intros x [<-|Hx].
    - split; [apply S1; congruence|]. split; [intros q _ _ Hq; apply S1, Hq|rewrite SL; discriminate].
    - split; [rewrite (HT x Hx) by congruence; apply S1; congruence|].
      split; [intros q _ H2 H3; rewrite (HT x Hx) by exact H2; apply S1, H3|].
      rewrite (HT x Hx) by congruence. rewrite SL. discriminate. }
  assert (EL : last (s1 :: t2) s = s2).
  { destruct t2 as [|y t2]; [cbn; rewrite HE1 by reflexivity; reflexivity|].
    assert (N : y :: t2 <> []) by discriminate. rewrite <- (HE2 N). change (last (s1 :: y :: t2) s) with (last (y :: t2) s).
    clear. revert y. induction t2; intros; [reflexivity|]. change (last (y :: a :: t2) s) with (last (a :: t2) s).
    change (last (y :: a :: t2) s2) with (last (a :: t2) s2). apply IHt2. }
  (* the file system after removing or renaming the temporary *)
  unfold exit_ops.
  assert (Base : forall x, In x (s1 :: t2) ->
     (x f = s f \/ (r = None /\ x f = contents (s (tmpfile f)) body /\ x f <> None))
     /\ (forall q, q <> f -> q <> tmpfile f -> q <> lockfile f -> x q = s q)
     /\ (x (tmpfile f) <> None -> x (lockfile f) <> None \/ (preserve = true /\ r <> None))).
  { intros x Hx. destruct (HX x Hx) as (A & B & C). tauto. }
  assert (LA : forall a b : fs, last ((s1 :: t2) ++ [a; b]) s = b).
  { intros a b. change [a; b] with ([a] ++ [b]). rewrite app_assoc, last_last. reflexivity. }
  assert (LB : forall b : fs, last ((s1 :: t2) ++ [b]) s = b) by (intros b; apply last_last).
  destruct r as [x|].
  - destruct preserve.
    + (* kept *)
      cbn [run app step]. rewrite S2L. cbn [run fst snd]. change (s1 :: t2 ++ [?z]) with ((s1 :: t2) ++ [z]).
      set (s3 := upd s2 (lockfile f) None).
      assert (S3 : forall q, q <> lockfile f -> s3 q = s2 q) by (intros q Hq; apply upd_other, Hq).
      assert (S3f : s3 f = s f) by (rewrite S3 by congruence; rewrite HS by congruence; apply S1; congruence).
      split; [|split].
      * intros y Hy. change (s1 :: t2 ++ [s3]) with ((s1 :: t2) ++ [s3]) in Hy. apply in_app_or in Hy as [Hy|[<-|[]]]; [apply Base, Hy|].
        split; [left; exact S3f|]. split.
        -- intros q H1 H2 H3. rewrite S3 by exact H3. rewrite HS by exact H2. apply S1, H3.
        -- intros _. right. split; [reflexivity|discriminate].
      * intros _. change (s1 :: t2 ++ [s3]) with ((s1 :: t2) ++ [s3]). rewrite LB. split; [reflexivity|].
        split; [exact S3f|]. split; [rewrite S3 by congruence; exact HC|apply upd_same].
      * intros _ [H|H]; discriminate.
    + destruct (s2 (tmpfile f)) as [c|] eqn:EC.
      * cbn [run app step]. rewrite EC. set (s3 := upd s2 (tmpfile f) None).
        assert (E3 : s3 (lockfile f) = Some []) by (unfold s3; rewrite upd_other by congruence; exact S2L).
        rewrite E3. cbn [run fst snd]. set (s4 := upd s3 (lockfile f) None).
        assert (S3 : forall q, q <> tmpfile f -> s3 q = s2 q) by (intros q Hq; apply upd_other, Hq).
        assert (S4 : forall q, q <> lockfile f -> s4 q = s3 q) by (intros q Hq; apply upd_other, Hq).
        assert (S3f : s3 f = s f) by (rewrite S3 by congruence; rewrite HS by congruence; apply S1; congruence).
        assert (S4f : s4 f = s f) by (rewrite S4 by congruence; exact S3f).
        split; [|split].
        -- intros y Hy. change (s1 :: t2 ++ [s3; s4]) with ((s1 :: t2) ++ [s3; s4]) in Hy.
           apply in_app_or in Hy as [Hy|[<-|[<-|[]]]]; [apply Base, Hy| |].
           ++ split; [left; exact S3f|]. split.
              ** intros q H1 H2 H3. rewrite S3 by exact H2. rewrite HS by exact H2. apply S1, H3.
              ** intros _. left. rewrite E3. discriminate.
           ++ split; [left; exact S4f|]. split.
              ** intros q H1 H2 H3. rewrite S4 by exact H3. rewrite S3 by exact H2. rewrite HS by exact H2. apply S1, H3.
              ** intros H. exfalso. apply H. rewrite S4 by congruence. apply upd_same.
        -- intros _. change (s1 :: t2 ++ [s3; s4]) with ((s1 :: t2) ++ [s3; s4]). rewrite LA. split; [reflexivity|].
           split; [exact S4f|]. split; [rewrite S4 by congruence; apply upd_same|apply upd_same].
        -- intros H. exfalso. congruence.
      * cbn [run app step]. rewrite EC. cbn [run fst snd]. rewrite app_nil_r.
        split; [exact Base|]. split.
        -- intros [H|H]; [discriminate|]. exfalso. congruence.
        -- intros _ _. split; [reflexivity|]. rewrite EL, S2L. discriminate.
  - destruct (s2 (tmpfile f)) as [c|] eqn:EC.
    + cbn [run app step]. rewrite EC. set (s3 := upd (upd s2 (tmpfile f) None) f (Some c)).
      assert (S3 : forall q, q <> tmpfile f -> q <> f -> s3 q = s2 q).
      { intros q H1 H2. unfold s3. rewrite !upd_other by assumption. reflexivity. }
      assert (E3 : s3 (lockfile f) = Some []) by (rewrite S3 by congruence; exact S2L).
      rewrite E3. cbn [run fst snd]. set (s4 := upd s3 (lockfile f) None).
      assert (S4 : forall q, q <> lockfile f -> s4 q = s3 q) by (intros q Hq; apply upd_other, Hq).
      assert (S3f : s3 f = Some c) by apply upd_same.
      assert (S3t : s3 (tmpfile f) = None) by (unfold s3; rewrite upd_other by congruence; apply upd_same).
      split; [|split].
      * intros y Hy. change (s1 :: t2 ++ [s3; s4]) with ((s1 :: t2) ++ [s3; s4]) in Hy.
        apply in_app_or in Hy as [Hy|[<-|[<-|[]]]]; [apply Base, Hy| |].
        -- split; [right; rewrite S3f; split; [reflexivity|split; [exact HC|discriminate]]|]. split.
           ++ intros q H1 H2 H3. rewrite S3 by assumption. rewrite HS by exact H2. apply S1, H3.
           ++ intros H. contradiction.
        -- split; [right; rewrite S4 by congruence; rewrite S3f; split; [reflexivity|split; [exact HC|discriminate]]|]. split.
           ++ intros q H1 H2 H3. rewrite S4 by exact H3. rewrite S3 by assumption. rewrite HS by exact H2. apply S1, H3.
           ++ intros H. exfalso. apply H. rewrite S4 by congruence. exact S3t.
      * intros _. change (s1 :: t2 ++ [s3; s4]) with ((s1 :: t2) ++ [s3; s4]). rewrite LA. split; [reflexivity|].
        split; [rewrite S4 by congruence; rewrite S3f, <- HC; reflexivity|].
        split; [rewrite S4 by congruence; exact S3t|apply upd_same].
      * intros H. exfalso. congruence.
    + cbn [run app step]. rewrite EC. cbn [run fst snd]. rewrite app_nil_r.
      split; [exact Base|]. split.
      * intros H. exfalso. congruence.
      * intros _ _. split; [reflexivity|]. rewrite EL, S2L. discriminate.
Qed.
End Proof.
