From Coq Require Import List Bool Arith ZArith QArith Reals Lia.
From Verif Require Import PyBase PyStr TimeModel TimeSpec TimeProofs TimeProofs2 SkyModel SkySpec.
Import ListNotations.
Open Scope list_scope.
Open Scope nat_scope.

Definition rep {O} (a : answer O) : reply O fail := match a with Gives o => Got O fail o | Fails f => Not O fail f end.
Definition seen {O} (l : list (call * answer O)) : list (call * reply O fail) := map (fun x => (fst x, rep (snd x))) l.

Section P.
Variable O : Type.
Variable env : nat -> call -> answer O.
Notation ask := (ask O env). Notation downloads := (downloads O env).
Notation timescale := (timescale O env). Notation ephemeris := (ephemeris O env).
Notation step := (step O env). Notation uses := (uses O env).

Lemma ask_log : forall w c a w', ask w c = (a, w') ->
  log O w' = log O w ++ [(c, a)] /\ eph_name O w' = eph_name O w /\ ts_cache O w' = ts_cache O w /\ eph_cache O w' = eph_cache O w.
Proof. intros w c a w' H. unfold SkyModel.ask in H. inversion H. subst. simpl. auto. Qed.

Lemma downloads_log : forall urls w r w', downloads w urls = (r, w') ->
  eph_name O w' = eph_name O w /\ ts_cache O w' = ts_cache O w /\ eph_cache O w' = eph_cache O w /\
  exists xs, all_got call O fail (seen xs) /\
    match r with
    | None => log O w' = log O w ++ xs /\ map fst xs = map CDownload urls
    | Some f => exists u us, map fst xs ++ CDownload u :: us = map CDownload urls /\
                             log O w' = log O w ++ xs ++ [(CDownload u, Fails f)]
    end.
Proof.
  induction urls as [|u urls IH]; intros w r w' H; cbn [SkyModel.downloads] in H.
  - inversion H; subst. repeat split. exists []. split; [constructor|]. rewrite app_nil_r. split; reflexivity.
  - destruct (ask w (CDownload u)) as [a w1] eqn:E. destruct (ask_log _ _ _ _ E) as [L [N [T P]]].
    destruct a as [o|f].
    + destruct (IH _ _ _ H) as [N' [T' [P' [xs [A R]]]]].
      split; [congruence|]. split; [congruence|]. split; [congruence|].
      exists ((CDownload u, Gives o) :: xs). split.
      * constructor; [exists o; reflexivity|exact A].
      * destruct r as [f|].
        -- destruct R as [v [us [R1 R2]]]. exists v, us. split; [simpl; rewrite R1; reflexivity|].
           rewrite R2, L. simpl. rewrite <- app_assoc. reflexivity.
        -- destruct R as [R1 R2]. split; [rewrite R1, L, <- app_assoc; reflexivity|simpl; rewrite R2; reflexivity].
    + inversion H; subst. repeat split; try assumption. exists []. split; [constructor|].
      exists u, (map CDownload urls). split; [reflexivity|]. rewrite L. reflexivity.
Qed.

(** One access, by what is in the cache: common shape of [timescale] and [ephemeris] *)
Definition accesses (off : call) (files : list call) (before : option O) (w w' : wrapper O) (a : answer O) (after : option O) : Prop :=
  eph_name O w' = eph_name O w /\
  exists cs, log O w' = log O w ++ cs /\
    match before with
    | Some o => cs = [] /\ a = Gives o /\ after = Some o
    | None => tries call O fail OSErr off files (seen cs) (rep a) /\ after = match a with Gives o => Some o | Fails _ => None end
    end.

Lemma seen_app : forall x y : list (call * answer O), seen (x ++ y) = seen x ++ seen y.
Proof. intros. apply map_app. Qed.
Lemma seen_fst : forall x : list (call * answer O), map fst (seen x) = map fst x.
Proof. intros. unfold seen. rewrite map_map. reflexivity. Qed.

Lemma timescale_accesses : forall w a w', timescale w = (a, w') ->
  accesses CTimescale [CDownload (mirror_url ++ leap_file); CDownload (mirror_url ++ finals_file)] (ts_cache O w) w w' a (ts_cache O w')
  /\ eph_cache O w' = eph_cache O w.
Proof.
  intros w a w' H. unfold SkyModel.timescale in H. unfold accesses.
  destruct (ts_cache O w) as [o|] eqn:C.
  - inversion H; subst. split; [|reflexivity]. split; [reflexivity|]. exists []. rewrite app_nil_r. auto.
  - destruct (ask w CTimescale) as [r w1] eqn:E. destruct (ask_log _ _ _ _ E) as [L [N [T P]]].
    destruct r as [o|[|]].
    + inversion H; subst. simpl. split; [|exact P]. split; [exact N|]. exists [(CTimescale, Gives o)].
      split; [exact L|]. split; [constructor|reflexivity].
    + destruct (downloads w1 [mirror_url ++ leap_file; mirror_url ++ finals_file]) as [d w2] eqn:D.
      destruct (downloads_log _ _ _ _ D) as [N' [T' [P' [xs [A R]]]]].
      destruct d as [f|].
      * destruct R as [u [us [R1 R2]]]. inversion H; subst. split; [|congruence]. split; [congruence|].
        exists ((CTimescale, Fails OSErr) :: xs ++ [(CDownload u, Fails f)]). split; [rewrite R2, L, <- app_assoc; reflexivity|].
        split; [|congruence]. simpl. rewrite seen_app. simpl. apply t_download with (ys := us); [rewrite seen_fst; exact R1|exact A].
      * destruct R as [R1 R2]. destruct (ask w2 CTimescale) as [r w3] eqn:E2. destruct (ask_log _ _ _ _ E2) as [L2 [N2 [T2 P2]]].
        assert (M : forall r', tries call O fail OSErr CTimescale [CDownload (mirror_url ++ leap_file); CDownload (mirror_url ++ finals_file)]
                     (seen ((CTimescale, Fails OSErr) :: xs ++ [(CTimescale, r')])) (rep r')).
        { intros r'. simpl. rewrite seen_app. simpl. apply t_mirror; [rewrite seen_fst; exact R2|exact A]. }
        destruct r as [o|f]; inversion H; subst; simpl.
        -- split; [|congruence]. split; [congruence|]. exists ((CTimescale, Fails OSErr) :: xs ++ [(CTimescale, Gives o)]).
           split; [rewrite L2, R1, L, <- !app_assoc; reflexivity|]. split; [apply (M (Gives o))|reflexivity].
        -- split; [|congruence]. split; [congruence|]. exists ((CTimescale, Fails OSErr) :: xs ++ [(CTimescale, Fails f)]).
           split; [rewrite L2, R1, L, <- !app_assoc; reflexivity|]. split; [apply (M (Fails f))|congruence].
    + inversion H; subst. split; [|exact P]. split; [exact N|]. exists [(CTimescale, Fails OtherErr)].
      split; [exact L|]. split; [apply t_broken; discriminate|congruence].
Qed.

Lemma ephemeris_accesses : forall w a w', ephemeris w = (a, w') ->
  accesses (CLoad (eph_name O w)) [CDownload (mirror_url ++ eph_name O w)] (eph_cache O w) w w' a (eph_cache O w')
  /\ ts_cache O w' = ts_cache O w.
Proof.
  intros w a w' H. unfold SkyModel.ephemeris in H. unfold accesses.
  destruct (eph_cache O w) as [o|] eqn:C.
  - inversion H; subst. split; [|reflexivity]. split; [reflexivity|]. exists []. rewrite app_nil_r. auto.
  - destruct (ask w (CLoad (eph_name O w))) as [r w1] eqn:E. destruct (ask_log _ _ _ _ E) as [L [N [T P]]].
    destruct r as [o|[|]].
    + inversion H; subst. simpl. split; [|exact T]. split; [exact N|]. exists [(CLoad (eph_name O w), Gives o)].
      split; [exact L|]. split; [constructor|reflexivity].
    + destruct (downloads w1 [mirror_url ++ eph_name O w1]) as [d w2] eqn:D.
      destruct (downloads_log _ _ _ _ D) as [N' [T' [P' [xs [A R]]]]]. rewrite N in R.
      destruct d as [f|].
      * destruct R as [u [us [R1 R2]]]. inversion H; subst. split; [|congruence]. split; [congruence|].
        exists ((CLoad (eph_name O w), Fails OSErr) :: xs ++ [(CDownload u, Fails f)]). split; [rewrite R2, L, <- app_assoc; reflexivity|].
        split; [|congruence]. simpl. rewrite seen_app. simpl. apply t_download with (ys := us); [rewrite seen_fst; exact R1|exact A].
      * destruct R as [R1 R2]. destruct (ask w2 (CLoad (eph_name O w2))) as [r w3] eqn:E2. destruct (ask_log _ _ _ _ E2) as [L2 [N2 [T2 P2]]].
        assert (NN : eph_name O w2 = eph_name O w) by congruence. rewrite NN in L2.
        assert (M : forall r', tries call O fail OSErr (CLoad (eph_name O w)) [CDownload (mirror_url ++ eph_name O w)]
                     (seen ((CLoad (eph_name O w), Fails OSErr) :: xs ++ [(CLoad (eph_name O w), r')])) (rep r')).
        { intros r'. simpl. rewrite seen_app. simpl. apply t_mirror; [rewrite seen_fst; exact R2|exact A]. }
        destruct r as [o|f]; inversion H; subst; simpl.
        -- split; [|congruence]. split; [congruence|]. exists ((CLoad (eph_name O w), Fails OSErr) :: xs ++ [(CLoad (eph_name O w), Gives o)]).
           split; [rewrite L2, R1, L, <- !app_assoc; reflexivity|]. split; [apply (M (Gives o))|reflexivity].
        -- split; [|congruence]. split; [congruence|]. exists ((CLoad (eph_name O w), Fails OSErr) :: xs ++ [(CLoad (eph_name O w), Fails f)]).
           split; [rewrite L2, R1, L, <- !app_assoc; reflexivity|]. split; [apply (M (Fails f))|congruence].
    + inversion H; subst. split; [|exact T]. split; [exact N|]. exists [(CLoad (eph_name O w), Fails OtherErr)].
      split; [exact L|]. split; [apply t_broken; discriminate|congruence].
Qed.

Lemma skipn_log : forall (l cs : list (call * answer O)), skipn (length l) (l ++ cs) = cs.
Proof. intros. rewrite skipn_app, skipn_all, Nat.sub_diag. reflexivity. Qed.
Lemma cons_app_inv : forall (A : Type) (x y : A) l pre post, x :: l = pre ++ y :: post ->
  (pre = [] /\ x = y /\ l = post) \/ (exists pre', pre = x :: pre' /\ l = pre' ++ y :: post).
Proof.
  intros A x y l [|z pre] post H; simpl in H; inversion H; subst; [left; auto|right; eauto].
Qed.

Definition as_reply (r : outcome O) (a : reply O fail) : Prop :=
  match r with OGot o => a = Got O fail o | OFailed f => a = Not O fail f | ODone => False end.

Lemma step_name : forall u w r w', step w u = (r, w') -> eph_name O w' = eph_name O w.
Proof.
  intros u w r w' H. destruct u; simpl in H.
  - destruct (timescale w) as [a w1] eqn:E. inversion H; subst. apply timescale_accesses in E. apply E.
  - destruct (ephemeris w) as [a w1] eqn:E. inversion H; subst. apply ephemeris_accesses in E. apply E.
  - destruct (SkyModel.reload O env w) as [a w1] eqn:E. inversion H; subst. apply downloads_log in E. apply E.
Qed.

(** What a cache and its accesses do in a sequence of uses *)
Section One.
Variable kind : use.
Variable cache : wrapper O -> option O.
Variables (off : str -> call) (files : str -> list call).
Hypothesis own : forall w r w', step w kind = (r, w') -> exists a,
  accesses (off (eph_name O w)) (files (eph_name O w)) (cache w) w w' a (cache w') /\
  r = match a with Gives o => OGot o | Fails f => OFailed f end.
Hypothesis others : forall u w r w', step w u = (r, w') -> u <> kind -> cache w' = cache w.
Hypothesis dec : forall u : use, u = kind \/ u <> kind.

Lemma uses_cached : forall us w o pre r cs post, cache w = Some o ->
  uses w us = pre ++ (kind, r, cs) :: post -> r = OGot o /\ cs = [].
Proof.
  induction us as [|u us IH]; intros w o pre r cs post C H; [destruct pre; discriminate H|].
  simpl in H. destruct (step w u) as [r1 w1] eqn:E. apply cons_app_inv in H.
  assert (K : cache w1 = Some o).
  { destruct (dec u) as [->|N]; [|rewrite (others _ _ _ _ E N); exact C].
    destruct (own _ _ _ E) as [a [[_ [l [_ A]]] _]]. rewrite C in A. apply A. }
  destruct H as [[-> [X _]]|[pre' [-> H]]].
  - inversion X; subst. destruct (own _ _ _ E) as [a [[_ [l [L A]]] ->]]. rewrite C in A.
    destruct A as [-> [-> _]]. rewrite L, skipn_log. split; reflexivity.
  - eapply IH; [exact K|exact H].
Qed.
Lemma uses_first : forall us w pre r cs post, cache w = None ->
  uses w us = pre ++ (kind, r, cs) :: post ->
  (forall o cs0, In (kind, OGot o, cs0) pre -> r = OGot o /\ cs = []) /\
  ((forall o cs0, ~ In (kind, OGot o, cs0) pre) ->
   exists a, tries call O fail OSErr (off (eph_name O w)) (files (eph_name O w)) (seen cs) a /\ as_reply r a).
Proof.
  induction us as [|u us IH]; intros w pre r cs post C H; [destruct pre; discriminate H|].
  simpl in H. destruct (step w u) as [r1 w1] eqn:E. apply cons_app_inv in H.
  destruct H as [[-> [X _]]|[pre' [-> H]]].
  - inversion X; subst. destruct (own _ _ _ E) as [a [[_ [l [L A]]] ->]]. rewrite C in A.
    split; [intros o cs0 []|]. intros _. exists (rep a). rewrite L, skipn_log. split; [apply A|].
    destruct a; reflexivity.
  - destruct (cache w1) as [o1|] eqn:C1.
    + destruct (dec u) as [->|N]; [|rewrite (others _ _ _ _ E N) in C1; congruence].
      destruct (own _ _ _ E) as [a [[_ [l [L A]]] ->]]. rewrite C, C1 in A. destruct A as [_ A].
      destruct a as [o2|f]; [|discriminate A]. inversion A; subst o2.
      destruct (uses_cached _ _ _ _ _ _ _ C1 H) as [-> ->]. split.
      * intros o cs0 [J|J]; [inversion J; subst; auto|].
        apply in_split in J. destruct J as [p1 [p2 ->]]. rewrite <- app_assoc in H.
        destruct (uses_cached _ _ _ _ _ _ _ C1 H) as [J _]. rewrite J. auto.
      * intros J. exfalso. eapply J. left. reflexivity.
    + destruct (IH _ _ _ _ _ C1 H) as [P Q]. rewrite (step_name _ _ _ _ E) in Q. split.
      * intros o cs0 [J|J]; [|eapply P; exact J]. inversion J; subst.
        destruct (own _ _ _ E) as [a [[_ [l [L A]]] R]]. rewrite C, C1 in A. destruct A as [_ A].
        destruct a; [discriminate A|discriminate R].
      * intros J. apply Q. intros o cs0 I. apply (J o cs0). right. exact I.
Qed.
End One.

Lemma timescale_own : forall w r w', step w UTimescale = (r, w') -> exists a,
  accesses CTimescale [CDownload (mirror_url ++ leap_file); CDownload (mirror_url ++ finals_file)] (ts_cache O w) w w' a (ts_cache O w') /\
  r = match a with Gives o => OGot o | Fails f => OFailed f end.
Proof.
  intros w r w' H. simpl in H. destruct (timescale w) as [a w1] eqn:E. inversion H; subst. exists a.
  split; [apply timescale_accesses; exact E|reflexivity].
Qed.
Lemma timescale_others : forall u w r w', step w u = (r, w') -> u <> UTimescale -> ts_cache O w' = ts_cache O w.
Proof.
  intros u w r w' H N. destruct u; [contradiction| |]; simpl in H.
  - destruct (ephemeris w) as [a w1] eqn:E. inversion H; subst. apply ephemeris_accesses in E. apply E.
  - destruct (SkyModel.reload O env w) as [a w1] eqn:E. inversion H; subst. apply downloads_log in E. apply E.
Qed.
Lemma ephemeris_own : forall w r w', step w UEphemeris = (r, w') -> exists a,
  accesses (CLoad (eph_name O w)) [CDownload (mirror_url ++ eph_name O w)] (eph_cache O w) w w' a (eph_cache O w') /\
  r = match a with Gives o => OGot o | Fails f => OFailed f end.
Proof.
  intros w r w' H. simpl in H. destruct (ephemeris w) as [a w1] eqn:E. inversion H; subst. exists a.
  split; [apply ephemeris_accesses; exact E|reflexivity].
Qed.
Lemma ephemeris_others : forall u w r w', step w u = (r, w') -> u <> UEphemeris -> eph_cache O w' = eph_cache O w.
Proof.
  intros u w r w' H N. destruct u; [|contradiction|]; simpl in H.
  - destruct (timescale w) as [a w1] eqn:E. inversion H; subst. apply timescale_accesses in E. apply E.
  - destruct (SkyModel.reload O env w) as [a w1] eqn:E. inversion H; subst. apply downloads_log in E. apply E.
Qed.
Lemma reload_uses : forall us w r cs, In (UReload, r, cs) (uses w us) ->
  (r = ODone /\ map fst cs = [CDownload finals_file; CDownload (eph_name O w)] /\ all_got call O fail (seen cs)) \/
  (exists xs u f ys, cs = xs ++ [(CDownload u, Fails f)] /\ r = OFailed f /\ all_got call O fail (seen xs) /\
     map fst xs ++ CDownload u :: ys = [CDownload finals_file; CDownload (eph_name O w)]).
Proof.
  induction us as [|u us IH]; intros w r cs H; [destruct H|].
  simpl in H. destruct (step w u) as [r1 w1] eqn:E. destruct H as [H|H].
  - inversion H; subst. simpl in E. destruct (SkyModel.reload O env w) as [a w2] eqn:E2. inversion E; subst.
    apply downloads_log in E2. destruct E2 as [_ [_ [_ [xs [A R]]]]]. destruct a as [f|].
    + right. destruct R as [v [ys [R1 R2]]]. exists xs, v, f, ys. rewrite R2, skipn_log. auto.
    + left. destruct R as [R1 R2]. rewrite R1, skipn_log. auto.
  - rewrite <- (step_name _ _ _ _ E). eapply IH. exact H.
Qed.
End P.
