(** A chain of tasks from [Input] to [Output]. *)
From Coq Require Import List Ascii Bool Arith ZArith Lia.
From Verif Require Import PyBase PyStr PipeModel PipeSpec PipeSpec2 PipeProofs PipeProofs3 PipeProofs4 PipeProofs5 PipeProofs6 PipeProofs8 PipeProofs9 PipeProps.
From Verif Require Import ExtModel ExtSpec.
Import ListNotations.
Open Scope list_scope.
Open Scope nat_scope.

Section C.
Context {V : Type}.
Notation pv := (pv V).
Notation event := (event V).
Notation stage_t := ((pv -> pv) * str * Z)%type.
Definition fn (x : stage_t) : pv -> pv := fst (fst x).
Definition key (x : stage_t) : str := snd (fst x).

(** ** The configuration by positions *)
Definition keyat (k : str) (fs : list stage_t) (j : nat) : str := nth j (k :: map key fs) [].

Lemma stages_nth : forall cb pout fs k j,
  nth_error (stages cb pout k fs) j =
  match nth_error fs j with
  | Some (f, k', p) => Some (mkconf (KOne (keyat k fs j)) (KMany []) (KOne k') (stage f) None p, [])
  | None => if j =? length fs
            then Some (mkconf (KOne (keyat k fs j)) (KMany []) (KMany []) (output_beh cb) None pout, [])
            else None
  end.
Proof.
  intros cb pout. induction fs as [|[[f k'] p] fs IH]; intros k [|j].
  - reflexivity.
  - cbn. destruct j; reflexivity.
  - reflexivity.
  - cbn [stages nth_error length Nat.eqb]. rewrite IH. unfold keyat. cbn [map].
    change (key (f, k', p)) with k'. reflexivity.
Qed.

Variables (xs : list pv) (cb : option (pv -> pv)) (pin pout : Z) (k : str) (fs : list stage_t).
Variable km : str -> bool.
Let cfg := chain xs cb pin pout k fs.
Let K := keyat k fs.
Hypothesis ND : NoDup (k :: map key fs).
Hypothesis KM : forall x, In x (k :: map key fs) -> km x = true.
Hypothesis TX : Forall not_tuple xs.
Hypothesis TF : Forall (fun x => forall v, not_tuple (fn x v)) fs.

Lemma K_inj : forall i j, i <= length fs -> j <= length fs -> K i = K j -> i = j.
Proof.
  intros i j Hi Hj E. apply (proj1 (NoDup_nth (k :: map key fs) []) ND); auto;
    cbn; rewrite map_length; lia.
Qed.
Lemma K_in : forall i, i <= length fs -> In (K i) (k :: map key fs).
Proof. intros i Hi. apply nth_In. cbn. rewrite map_length. lia. Qed.

Lemma cfg_0 : nth_error cfg 0 = Some (mkconf (KMany []) (KMany []) (KOne k) input_beh None pin, xs).
Proof. reflexivity. Qed.
Lemma cfg_stage : forall j x, nth_error fs j = Some x ->
  nth_error cfg (S j) = Some (mkconf (KOne (K j)) (KMany []) (KOne (K (S j))) (stage (fn x)) None (snd x), []).
Proof.
  intros j [[f k'] p] H. cbn. rewrite stages_nth, H. repeat f_equal. unfold keyat. cbn.
  symmetry. apply nth_error_nth. rewrite nth_error_map, H. reflexivity.
Qed.
Lemma cfg_last : nth_error cfg (S (length fs)) =
  Some (mkconf (KOne (K (length fs))) (KMany []) (KMany []) (output_beh cb) None pout, []).
Proof.
  cbn. rewrite stages_nth, Nat.eqb_refl. rewrite (proj2 (nth_error_None fs (length fs))); auto.
Qed.
Lemma cfg_cases : forall i c s, nth_error cfg i = Some (c, s) ->
  (i = 0 /\ c = mkconf (KMany []) (KMany []) (KOne k) input_beh None pin /\ s = xs) \/
  (exists j x, i = S j /\ nth_error fs j = Some x /\ s = [] /\
     c = mkconf (KOne (K j)) (KMany []) (KOne (K (S j))) (stage (fn x)) None (snd x)) \/
  (i = S (length fs) /\ s = [] /\
     c = mkconf (KOne (K (length fs))) (KMany []) (KMany []) (output_beh cb) None pout).
Proof.
  intros [|j] c s H.
  - rewrite cfg_0 in H. injection H as <- <-. auto.
  - right. destruct (nth_error fs j) as [x|] eqn:E.
    + rewrite (cfg_stage j x E) in H. injection H as <- <-. left. exists j, x. auto.
    + cbn in H. rewrite stages_nth, E in H. destruct (Nat.eqb_spec j (length fs)) as [->|]; [|discriminate].
      injection H as <- <-. right. auto.
Qed.
Lemma stage_lt : forall j (x : stage_t), nth_error fs j = Some x -> j < length fs.
Proof. intros j x H. apply nth_error_Some. congruence. Qed.

Lemma produces_iff : forall i key0, produces cfg i key0 -> i <= length fs /\ key0 = K i.
Proof.
  intros i key0 (c & [s H] & Hin). apply cfg_cases in H as [(-> & -> & _)|[(j & x & -> & H & _ & ->)|(-> & _ & ->)]]; cbn in Hin.
  - destruct Hin as [<-|[]]. split; [lia|reflexivity].
  - destruct Hin as [<-|[]]. apply stage_lt in H. split; [lia|reflexivity].
  - destruct Hin.
Qed.
Lemma takes_iff : forall i key0, takes cfg i key0 -> exists j, i = S j /\ j <= length fs /\ key0 = K j.
Proof.
  intros i key0 (c & [s H] & Hin). apply cfg_cases in H as [(-> & -> & _)|[(j & x & -> & H & _ & ->)|(-> & _ & ->)]]; cbn in Hin.
  - destruct Hin as [[]|[]].
  - destruct Hin as [[<-|[]]|[]]. apply stage_lt in H. exists j. repeat split; lia.
  - destruct Hin as [[<-|[]]|[]]. exists (length fs). repeat split; lia.
Qed.

Lemma chain_producers_first : producers_first cfg.
Proof.
  intros i j key0 Hp Ht. apply produces_iff in Hp as [Hi ->].
  apply takes_iff in Ht as (j' & -> & Hj & E). apply K_inj in E; lia.
Qed.
Lemma input_stops : forall l : list pv, stops_within (S (length l)) input_beh l.
Proof. induction l as [|x l IH]; [exact I|exact IH]. Qed.
Lemma chain_sources_stop : sources_stop cfg.
Proof.
  intros i c s [s0 H] Hk.
  apply cfg_cases in H as [(-> & -> & _)|[(j & x & -> & H & _ & ->)|(-> & _ & ->)]]; try discriminate.
  exists (S (length s)). apply input_stops.
Qed.

(** ** What the tasks produce *)
Lemma one_item : forall i c s key0 (e : event) o, nth_error cfg i = Some (c, s) -> c_out c = KOne key0 ->
  km key0 = true -> returned e = Some (i, o) -> not_tuple o ->
  products cfg km key0 [e] = some_of [o].
Proof.
  intros i c s key0 e o Hi Hc Hk Hr Ht. unfold products. cbn [flat_map]. rewrite app_nil_r.
  unfold produced_by. rewrite Hr, Hi. cbn [fst]. rewrite Hc.
  assert (R : seqb key0 key0 = true) by (apply seqb_eq; reflexivity).
  destruct o; cbn; rewrite ?R, ?Hk; try reflexivity. exfalso. now apply (Ht l).
Qed.
Lemma no_item : forall (e : event) key0, returned e = None -> products cfg km key0 [e] = [].
Proof. intros e key0 H. unfold products. cbn [flat_map]. unfold produced_by. now rewrite H. Qed.
Lemma none_tuple : not_tuple (@PNone V). Proof. intros l. discriminate. Qed.

Lemma products_cons : forall key0 (e : event) l,
  products cfg km key0 (e :: l) = products cfg km key0 [e] ++ products cfg km key0 l.
Proof. intros. rewrite <- products_app. reflexivity. Qed.

Lemma nx_cons : forall (e : event) l, nx (e :: l) = nx [e] ++ nx l.
Proof. intros. rewrite <- nx_app. reflexivity. Qed.

Lemma stage_products : forall j x, nth_error fs j = Some x -> forall (L : list event) s,
  (forall e, In e L -> owner e = S j) -> replay (stage (fn x)) s L ->
  Forall (fun a => length a = 1) (nx L) ->
  products cfg km (K (S j)) L = some_of (map (fn x) (map (fun a => hd PNone a) (nx L))).
Proof.
  intros j x Hj. pose proof (cfg_stage j x Hj) as Hc.
  assert (Hk : km (K (S j)) = true) by (apply KM, K_in; apply stage_lt in Hj; lia).
  assert (Hx : forall v, not_tuple (fn x v)).
  { intros v. rewrite Forall_forall in TF. apply TF. eapply nth_error_In; eauto. }
  induction L as [|e L IH]; intros s Ho R F; [reflexivity|].
  rewrite products_cons. rewrite nx_cons in *.
  assert (Ho' : forall e0, In e0 L -> owner e0 = S j) by (intros; apply Ho; now right).
  specialize (Ho e (or_introl eq_refl)). apply Forall_app in F as [F1 F2].
  destruct e as [i a r|i a r|i r|i|i]; cbn [owner] in Ho; subst i; cbn [replay] in R.
  - destruct R as [-> R]. cbn [stage b_setup b_finish snd fst] in R |- *. erewrite one_item; [|exact Hc|reflexivity|exact Hk|reflexivity|exact none_tuple].
    cbn. eapply IH; eauto.
  - destruct R as [-> R]. cbn in F1. inversion F1 as [|? ? E _]; subst.
    destruct a as [|v [|? ?]]; try discriminate.
    cbn [stage b_next fst snd] in R |- *.
    erewrite one_item; [|exact Hc|reflexivity|exact Hk|reflexivity|exact (Hx v)].
    cbn [nx flat_map app map hd]. rewrite (IH _ Ho' R F2). unfold some_of. cbn [filter].
    destruct (fn x v); reflexivity.
  - destruct R as [-> R]. cbn [stage b_setup b_finish snd fst] in R |- *. erewrite one_item; [|exact Hc|reflexivity|exact Hk|reflexivity|exact none_tuple].
    cbn. eapply IH; eauto.
  - rewrite no_item by reflexivity. cbn. eapply IH; eauto.
  - rewrite no_item by reflexivity. cbn. eapply IH; eauto.
Qed.

Lemma input_products : forall (L : list event) s, Forall not_tuple s ->
  (forall e, In e L -> owner e = 0) -> replay input_beh s L ->
  Forall (fun a => length a = 0) (nx L) ->
  (In Stop (flat_map (fun e => match e with ENext _ _ r => [r] | _ => [] end) L) \/ s = []) ->
  products cfg km k L = some_of s.
Proof.
  pose proof cfg_0 as Hc.
  assert (Hk : km k = true) by (apply KM; now left).
  induction L as [|e L IH]; intros s Hs Ho R F St.
  { destruct St as [[]| ->]. reflexivity. }
  rewrite products_cons. rewrite nx_cons in *.
  assert (Ho' : forall e0, In e0 L -> owner e0 = 0) by (intros; apply Ho; now right).
  specialize (Ho e (or_introl eq_refl)). apply Forall_app in F as [F1 F2].
  destruct e as [i a r|i a r|i r|i|i]; cbn [owner] in Ho; subst i; cbn [replay] in R; cbn [flat_map app] in St.
  - destruct R as [-> R]. cbn [input_beh b_setup b_finish snd fst] in R |- *. erewrite one_item; [|exact Hc|reflexivity|exact Hk|reflexivity|exact none_tuple].
    cbn. eapply IH; eauto.
  - destruct R as [-> R]. cbn in F1. inversion F1 as [|? ? E _]; subst. destruct a; [|discriminate].
    destruct s as [|v s]; cbn [input_beh b_next fst snd] in R, St |- *.
    + rewrite no_item by reflexivity. cbn [app]. apply IH; auto.
    + inversion Hs; subst. erewrite one_item; [|exact Hc|reflexivity|exact Hk|reflexivity|assumption].
      rewrite (IH s); auto.
      * unfold some_of. cbn [filter]. destruct v; reflexivity.
      * destruct St as [[St|St]|St]; [discriminate| |discriminate]. auto.
  - destruct R as [-> R]. cbn [input_beh b_setup b_finish snd fst] in R |- *. erewrite one_item; [|exact Hc|reflexivity|exact Hk|reflexivity|exact none_tuple].
    cbn. eapply IH; eauto.
  - rewrite no_item by reflexivity. cbn. eapply IH; eauto.
  - rewrite no_item by reflexivity. cbn. eapply IH; eauto.
Qed.

Lemma output_state : forall (L : list event) s,
  Forall (fun a => length a = 1) (nx L) ->
  state_after (output_beh cb) s L =
  s ++ map (fun v => match cb with Some f => f v | None => v end) (map (fun a => hd PNone a) (nx L)).
Proof.
  induction L as [|e L IH]; intros s F; [cbn; now rewrite app_nil_r|].
  rewrite nx_cons in *. apply Forall_app in F as [F1 F2].
  destruct e as [i a r|i a r|i r|i|i]; cbn [state_after].
  - cbn. auto.
  - cbn in F1. inversion F1 as [|? ? E _]; subst. destruct a as [|v [|? ?]]; try discriminate.
    cbn [output_beh b_next fst]. rewrite IH by auto. rewrite <- app_assoc. reflexivity.
  - cbn. auto.
  - cbn. auto.
  - cbn. auto.
Qed.

(** A call in the trace did what the method does in some state. *)
Lemma replay_in : forall (b : beh V (list pv)) L s i a r, replay b s L -> In (ENext i a r) L ->
  exists s', r = snd (b_next b s' a).
Proof.
  intros b. induction L as [|e L IH]; intros s i a r R H; [destruct H|].
  destruct H as [->|H].
  - exists s. apply R.
  - destruct e; cbn in R; try (destruct R as [_ R]); eauto.
Qed.

Lemma replay_setup : forall (b : beh V (list pv)) L s i a r, (forall s a, snd (b_setup b s a) = Ret PNone) ->
  replay b s L -> In (ESetup i a r) L -> r = Ret PNone.
Proof.
  intros b. induction L as [|e L IH]; intros s i a r Q R H; [destruct H|].
  destruct H as [->|H]; [rewrite (proj1 R); apply Q|].
  destruct e; cbn in R; try (destruct R as [_ R]); eauto.
Qed.
Lemma replay_finish : forall (b : beh V (list pv)) L s i r, (forall s, snd (b_finish b s) = Ret PNone) ->
  replay b s L -> In (EFinish i r) L -> r = Ret PNone.
Proof.
  intros b. induction L as [|e L IH]; intros s i r Q R H; [destruct H|].
  destruct H as [->|H]; [rewrite (proj1 R); apply Q|].
  destruct e; cbn in R; try (destruct R as [_ R]); eauto.
Qed.

Section Run.
Variables (n : nat) (tr : list event) (r : result V (list pv)).
Hypothesis RUN : run km n (start cfg) = (tr, r).

Lemma own_owner : forall i (e : event), In e (own i tr) -> owner e = i.
Proof. intros i e H. now apply own_in in H. Qed.

Lemma nx_length : forall i c, conf_at cfg i c ->
  Forall (fun a => length a = length (klist (c_in c))) (nx (own i tr)).
Proof. intros i c H. rewrite nx_own. eapply C42_in_order; eauto. Qed.

Lemma chain_no_stop : forall j c s args, nth_error cfg (S j) = Some (c, s) -> ~ In (ENext (S j) args Stop) tr.
Proof.
  intros j c s args Hc H.
  assert (Hin : In (ENext (S j) args Stop) (own (S j) tr)) by (apply own_in; auto).
  pose proof (run_replay _ _ _ _ _ RUN _ _ _ Hc) as R.
  destruct (replay_in _ _ _ _ _ _ R Hin) as [s' E].
  apply cfg_cases in Hc as [(? & _)|[(j' & x & _ & _ & _ & ->)|(_ & _ & ->)]]; [discriminate| |];
    cbn in E; destruct args as [|v [|? ?]]; discriminate.
Qed.

Lemma chain_no_fail : forall x, r <> Fail x.
Proof.
  intros x E0. assert (RUN' : run km n (start cfg) = (tr, Fail x)) by (rewrite <- E0; exact RUN).
  destruct (C43_failures _ _ _ _ _ _ _ chain_producers_first RUN') as (tr' & e & E & [B|B]).
  - assert (He : In e tr) by (rewrite E; apply in_or_app; right; now left).
    assert (Hc : exists c s, nth_error cfg (owner e) = Some (c, s)).
    { apply run_ok in RUN' as (_ & tr1 & e1 & m & E1 & HI & _ & t & Ht).
      rewrite E in E1. apply app_inj_tail in E1 as [<- <-].
      destruct (slot_of _ _ _ _ _ _ HI Ht) as (c & s & Hi & _). eauto. }
    destruct Hc as (c & s & Hc).
    pose proof (run_replay _ _ _ _ _ RUN _ _ _ Hc) as R.
    assert (Hin : In e (own (owner e) tr)) by (apply own_in; auto).
    assert (Hl : forall args o, e = ENext (owner e) args o -> length args = length (klist (c_in c))).
    { intros args o Ee. pose proof (nx_length (owner e) c (ex_intro _ s Hc)) as F.
      rewrite Forall_forall in F. apply F. rewrite Ee in Hin at 1. unfold nx. apply in_flat_map.
      exists (ENext (owner e) args o). split; [exact Hin|now left]. }
    assert (Fit : forall o : pv, c_out c = KMany [] \/ (exists q, c_out c = KOne q) -> fits (c_out c) o).
    { intros o [->|[q ->]]; [right; now left|right; right; left; eauto]. }
    assert (Out : c_out c = KMany [] \/ (exists q, c_out c = KOne q)).
    { pose proof Hc as Hc'.
      apply cfg_cases in Hc' as [(_ & -> & _)|[(j & y & _ & _ & _ & ->)|(_ & _ & ->)]]; cbn; eauto. }
    assert (NF : forall o : pv, ~ exists c0, conf_at cfg (owner e) c0 /\ ~ fits (c_out c0) o).
    { intros o (c0 & [s0 H0] & N). rewrite Hc in H0. injection H0 as <- <-. auto. }
    destruct e as [i a o|i a o|i o|i|i]; cbn in B; try contradiction; cbn [owner] in *.
    + assert (o = Ret PNone) as ->; [|exact (NF _ B)].
      eapply replay_setup; [|exact R|exact Hin].
      apply cfg_cases in Hc as [(_ & -> & _)|[(j & y & _ & _ & _ & ->)|(_ & _ & ->)]]; reflexivity.
    + specialize (Hl a o eq_refl). destruct (replay_in _ _ _ _ _ _ R Hin) as [s' ->].
      apply cfg_cases in Hc as [(_ & -> & _)|[(j & y & _ & _ & _ & ->)|(_ & _ & ->)]]; cbn in Hl, B.
      * destruct a; [|discriminate]. destruct s'; cbn in B; [contradiction|exact (NF _ B)].
      * destruct a as [|v [|? ?]]; try discriminate. exact (NF _ B).
      * destruct a as [|v [|? ?]]; try discriminate. exact (NF _ B).
    + assert (o = Ret PNone) as ->; [|exact (NF _ B)].
      eapply replay_finish; [|exact R|exact Hin].
      apply cfg_cases in Hc as [(_ & -> & _)|[(j & y & _ & _ & _ & ->)|(_ & _ & ->)]]; reflexivity.
  - destruct B as (key0 & j & c & _ & _ & [s Hc] & [[Hk _]|[Hk [[args Hs]|(c' & kk & [s' Hc'] & Hl & _)]]]).
    + apply cfg_cases in Hc as [(_ & -> & _)|[(j' & y & _ & _ & _ & ->)|(_ & _ & ->)]]; destruct Hk.
    + destruct j as [|j].
      * rewrite cfg_0 in Hc. injection Hc as <- <-. destruct Hk.
      * eapply chain_no_stop; eauto.
    + apply cfg_cases in Hc' as [(_ & -> & _)|[(j' & y & _ & _ & _ & ->)|(_ & _ & ->)]]; discriminate.
Qed.

Hypothesis DONE : r = Done.

Lemma chain_args : forall j, j <= length fs ->
  map (fun a => hd PNone a) (nx (own (S j) tr)) = products cfg km (K j) tr /\
  Forall (fun a => length a = 1) (nx (own (S j) tr)).
Proof.
  intros j Hj. assert (RUN' : run km n (start cfg) = (tr, Done)) by (rewrite <- DONE; exact RUN).
  assert (G : exists c s, nth_error cfg (S j) = Some (c, s) /\ c_in c = KOne (K j) /\
                klist (c_req c) = [] /\ c_limit c = None).
  { destruct (nth_error fs j) as [x|] eqn:E.
    - eexists _, _. split; [apply (cfg_stage j x E)|]. auto.
    - apply nth_error_None in E. assert (j = length fs) as -> by lia.
      eexists _, _. split; [apply cfg_last|]. auto. }
  destruct G as (c & s & Hc & Hi & Hq & Hl).
  destruct (set_up _ _ _ _ _ _ _ RUN' Hc Hq) as [o Ho].
  pose proof (C43_single_input _ _ _ _ _ _ (S j) c [] o (K j) chain_producers_first RUN'
    (ex_intro _ s Hc) Ho (fun args => chain_no_stop j c s args Hc) Hl ltac:(now rewrite Hi)) as N.
  rewrite nx_own, N, map_map. cbn. rewrite map_id. split; [reflexivity|].
  apply Forall_forall. intros a Ha. apply in_map_iff in Ha as (v & <- & _). reflexivity.
Qed.

Lemma chain_products : forall j, j <= length fs ->
  products cfg km (K j) tr = through (map fn (firstn j fs)) (some_of xs).
Proof.
  induction j as [|j IH]; intros Hj.
  - cbn. rewrite (products_own cfg km (K 0) 0).
    + apply input_products; auto.
      * intros e He. now apply own_owner.
      * apply (run_replay _ _ _ _ _ RUN 0 _ _ cfg_0).
      * apply (nx_length 0 _ (ex_intro _ xs cfg_0)).
      * left. assert (RUN' : run km n (start cfg) = (tr, Done)) by (rewrite <- DONE; exact RUN).
        destruct (ends_itself _ _ _ _ _ _ _ RUN' cfg_0 eq_refl eq_refl eq_refl) as [a Ha].
        apply in_flat_map. exists (ENext 0 a Stop). split; [apply own_in; auto|now left].
    + intros i Hp. apply produces_iff in Hp as [Hi E]. symmetry. apply K_inj; auto.
  - assert (E : exists x, nth_error fs j = Some x).
    { destruct (nth_error fs j) eqn:E; eauto. apply nth_error_None in E. lia. }
    destruct E as [x E]. destruct (chain_args j ltac:(lia)) as [A B].
    rewrite (products_own cfg km (K (S j)) (S j)).
    + rewrite (stage_products j x E _ []); auto.
      * rewrite A, IH by lia. clear - E. revert j E. generalize (some_of xs).
        induction fs as [|y l IH]; intros v [|j] E; try discriminate.
        -- injection E as ->. reflexivity.
        -- cbn. apply IH. exact E.
      * intros e He. now apply own_owner.
      * apply (run_replay _ _ _ _ _ RUN (S j) _ _ (cfg_stage j x E)).
    + intros i Hp. apply produces_iff in Hp as [Hi E']. symmetry. apply K_inj; auto.
Qed.

Lemma chain_outputs :
  state_after (output_beh cb) [] (own (S (length fs)) tr) =
  map (fun v => match cb with Some f => f v | None => v end) (through (map fn fs) (some_of xs)).
Proof.
  destruct (chain_args (length fs) (le_n _)) as [A B].
  rewrite output_state by auto. cbn [app]. rewrite A, chain_products by auto. now rewrite firstn_all.
Qed.
End Run.
End C.
