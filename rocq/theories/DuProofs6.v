(** Indexing of distributed arrays. *)
From Coq Require Import List Arith ZArith Bool Lia.
From Verif Require Import PyBase PartSpec PartModel PartProofs PartProps0 SliceModel RedModel RedSpec RedProofs AxModel AxSpec AxProofs AxProofs2 DuModel DuSpec DuProofs DuProofs2 DuProofs3.
Import ListNotations.
Open Scope nat_scope.

Lemma indices_bounds : forall s n a b k, (0 <= n)%Z -> slice_indices s n = Ok (a, b, k) ->
  (0 < k -> 0 <= a <= n /\ 0 <= b <= n)%Z /\ (k <= 0 -> k <> 0 /\ -1 <= a <= n - 1 /\ -1 <= b <= n - 1)%Z.
Proof.
  intros [s0 s1 s2] n a b k Hn H. unfold slice_indices in H. cbn [sl_start sl_stop sl_step] in H. cbv zeta beta in H.
  set (st := match s2 with Some k => k | None => 1%Z end) in *. clearbody st.
  destruct (Z.eqb_spec st 0) as [|K]; [discriminate|]. injection H as <- <- <-.
  destruct (Z.ltb_spec 0 st); (split; [intros ?|intros ?]); try lia; cbv zeta beta;
    destruct s0 as [x|], s1 as [y|]; try (destruct (Z.ltb_spec x 0)); try (destruct (Z.ltb_spec y 0)); lia.
Qed.
Lemma slice_in : forall s n ps z, (0 <= n)%Z -> slice_positions s n = Ok ps -> In z ps -> (0 <= z < n)%Z.
Proof.
  intros s n ps z Hn H Hz. unfold slice_positions in H. destruct (slice_indices s n) as [[[a b] k]|] eqn:E; [|discriminate].
  apply indices_bounds in E; [|exact Hn]. destruct E as [B1 B2]. injection H as <-.
  apply in_map_iff in Hz. destruct Hz as (i & <- & Hi). apply in_seq in Hi. unfold range_len in Hi. revert Hi. destruct (Z.ltb_spec 0 k).
  - specialize (B1 ltac:(lia)). destruct (Z.ltb_spec a b); intros Hi; [|lia].
    pose proof (Z.div_mod (b - a - 1) k ltac:(lia)). pose proof (Z.mod_pos_bound (b - a - 1) k ltac:(lia)).
    set (q := ((b - a - 1) / k)%Z) in *. assert (Z.of_nat i <= q)%Z by lia. nia.
  - specialize (B2 ltac:(lia)). destruct (Z.ltb_spec b a); intros Hi; [|lia].
    pose proof (Z.div_mod (a - b - 1) (- k) ltac:(lia)). pose proof (Z.mod_pos_bound (a - b - 1) (- k) ltac:(lia)).
    set (q := ((a - b - 1) / - k)%Z) in *. assert (Z.of_nat i <= q)%Z by lia. nia.
Qed.
Lemma whole_positions : forall e n, Whole e n -> exists s, e = ISl s /\ slice_positions s (Z.of_nat n) = Ok (map Z.of_nat (seq 0 n)).
Proof.
  intros e n H.
  assert (E : forall s, slice_indices s (Z.of_nat n) = Ok (0%Z, Z.of_nat n, 1%Z) -> slice_positions s (Z.of_nat n) = Ok (map Z.of_nat (seq 0 n))).
  { intros s E. unfold slice_positions. rewrite E. unfold range_len. cbn [Z.ltb Z.compare]. f_equal.
    replace (Z.to_nat (if (0 <? Z.of_nat n)%Z then (Z.of_nat n - 0 - 1) / 1 + 1 else 0)) with n.
    - apply map_ext. intros i. lia.
    - destruct (Z.ltb_spec 0 (Z.of_nat n)); [|lia]. rewrite Z.div_1_r. lia. }
  destruct H as [->| ->]; eexists; (split; [reflexivity|]); apply E.
  - reflexivity.
  - unfold slice_indices. cbn [sl_start sl_stop sl_step Z.eqb Z.ltb Z.compare]. destruct n as [|n]; [reflexivity|].
    do 2 f_equal. destruct (Z.ltb_spec (Z.of_nat (S n)) 0); [lia|]. f_equal. lia.
Qed.

Lemma seq_at : forall q m y, nth_error (map Z.of_nat (seq 0 m)) q = Some (Z.of_nat y) -> y = q.
Proof.
  intros q m y H. rewrite nth_error_map in H. destruct (nth_error (seq 0 m) q) as [w|] eqn:E; [|discriminate].
  injection H as H. assert (L : q < m) by (rewrite <- (seq_length m 0); apply nth_error_Some; congruence).
  pose proof (nth_error_nth _ _ 0 E) as N. rewrite seq_nth in N by exact L. lia.
Qed.
Lemma set_nth_app : forall (T : Type) (a b : list T) x y, set_nth (length a) y (a ++ x :: b) = a ++ y :: b.
Proof. intros T a b x y. unfold set_nth. induction a as [|z a IH]; [reflexivity|]. cbn [length app]. cbn. f_equal. exact IH. Qed.
Lemma shift_app : forall a b x s, shift (length a) s (a ++ x :: b) = a ++ (x + s) :: b.
Proof. intros a b x s. unfold shift. rewrite nth_middle. apply set_nth_app. Qed.

(** ** Index relations and the computed index *)
Lemma extent_length : forall sl sh t, Extent sl sh t -> length sh = consumed sl.
Proof. intros sl sh t H. induction H; cbn [consumed length]; auto. Qed.
Lemma np_index_ok : forall sl sh t, Extent sl sh t ->
  exists g, np_index sl sh = Ok (t, g) /\ forall o, InShape o t -> Selects sl sh o (g o) /\ InShape (g o) sh.
Proof.
  intros sl sh t H. induction H as [|sl sh t H (g & E & G)|z sl n sh t k Hz H (g & E & G)|s sl n sh t ps Hs H (g & E & G)].
  - exists (fun _ => []). split; [reflexivity|]. intros o Ho. inversion Ho; subst. split; constructor.
  - eexists. cbn [np_index]. rewrite E. cbn [rbind]. split; [reflexivity|]. intros o Ho. inversion Ho as [|x m o' t' Hx Ho']; subst.
    replace x with 0 by lia. cbn [tl]. destruct (G _ Ho'). split; [now constructor|assumption].
  - eexists. cbn [np_index]. rewrite (pyaxis_names _ _ _ Hz), E. cbn [rbind]. split; [reflexivity|]. intros o Ho.
    destruct (G _ Ho). split; [econstructor; eassumption|]. constructor; [apply Hz|assumption].
  - eexists. cbn [np_index]. rewrite Hs, E. cbn [rbind]. split; [reflexivity|]. intros o Ho. inversion Ho as [|x m o' t' Hx Ho']; subst.
    cbn [hd tl]. destruct (G _ Ho').
    destruct (nth_error ps x) as [y|] eqn:Ey; [|apply nth_error_None in Ey; lia].
    pose proof (slice_in s (Z.of_nat n) ps y ltac:(lia) Hs (nth_error_In _ _ Ey)) as B.
    rewrite (nth_error_nth (map Z.to_nat ps) x 0 (map_nth_error _ _ _ Ey)). split; [|constructor; [lia|assumption]].
    econstructor; [exact Hs|rewrite Ey, Z2Nat.id by lia; reflexivity|assumption].
Qed.
Lemma selects_unique : forall sl sh o i i', Selects sl sh o i -> Selects sl sh o i' -> i = i'.
Proof.
  intros sl sh o i i' H. revert i'. induction H as [|sl sh o i H IH|z sl n sh o i k Hz H IH|s sl n sh o i x k ps Hs Hx H IH]; intros i' H';
    inversion H' as [|? ? ? ? H1|? ? ? ? ? ? k' Hz' H1|? ? ? ? ? ? ? k' ps' Hs' Hx' H1]; subst; auto.
  - f_equal; [|now apply IH]. destruct Hz as [? ?], Hz' as [? ?]. lia.
  - f_equal; [|now apply IH]. rewrite Hs in Hs'. injection Hs' as <-. rewrite Hx in Hx'. injection Hx'. lia.
Qed.
Lemma extent_app : forall a b sha shb t, length sha = consumed a -> Extent (a ++ b) (sha ++ shb) t ->
  exists ta tb, t = ta ++ tb /\ Extent a sha ta /\ Extent b shb tb.
Proof.
  induction a as [|e a IH]; intros b sha shb t HL H.
  - destruct sha; [|discriminate]. exists [], t. repeat split; [constructor|exact H].
  - cbn [app] in H. destruct e as [|z|s|].
    + inversion H as [|? ? t' H1| |]; subst. destruct (IH b sha shb t' HL H1) as (ta & tb & -> & Ha & Hb).
      exists (1 :: ta), tb. repeat split; [now constructor|exact Hb].
    + cbn [consumed] in HL. destruct sha as [|n sha]; [discriminate|]. cbn [app] in H. inversion H as [| |? ? ? ? ? k Hk H1|]; subst.
      destruct (IH b sha shb t) as (ta & tb & -> & Ha & Hb); [cbn in HL; lia|assumption|].
      exists ta, tb. repeat split; [now econstructor; eauto|exact Hb].
    + cbn [consumed] in HL. destruct sha as [|n sha]; [discriminate|]. cbn [app] in H. inversion H as [| | |? ? ? ? t' ps Hs H1]; subst.
      destruct (IH b sha shb t') as (ta & tb & -> & Ha & Hb); [cbn in HL; lia|assumption|].
      exists (length ps :: ta), tb. repeat split; [now constructor|exact Hb].
    + inversion H.
Qed.
Lemma app_extent : forall a b sha shb ta tb, Extent a sha ta -> Extent b shb tb -> Extent (a ++ b) (sha ++ shb) (ta ++ tb).
Proof. intros a b sha shb ta tb H Hb. induction H; cbn [app]; [exact Hb|now constructor|econstructor; eauto|now constructor]. Qed.
Lemma selects_app : forall a b sha shb oa ob i, length sha = consumed a -> length oa = length (filter (fun e => negb (is_int e)) a) ->
  Selects (a ++ b) (sha ++ shb) (oa ++ ob) i ->
  exists ia ib, i = ia ++ ib /\ Selects a sha oa ia /\ Selects b shb ob ib.
Proof.
  induction a as [|e a IH]; intros b sha shb oa ob i HL HO H.
  - destruct sha; [|discriminate]. destruct oa; [|discriminate]. exists [], i. repeat split; [constructor|exact H].
  - cbn [app] in H. destruct e as [|z|s|].
    + cbn in HO. destruct oa as [|x oa]; [discriminate|]. cbn [app] in H. inversion H as [|? ? ? ? H1| |]; subst.
      destruct (IH b sha shb oa ob i HL ltac:(cbn in *; lia) H1) as (ia & ib & -> & Ha & Hb).
      exists ia, ib. repeat split; [now constructor|exact Hb].
    + cbn [consumed] in HL. destruct sha as [|n sha]; [discriminate|]. cbn [app] in H. inversion H as [| |? ? ? ? ? i' k Hk H1|]; subst.
      destruct (IH b sha shb oa ob i') as (ia & ib & -> & Ha & Hb); [cbn in *; lia|exact HO|assumption|].
      exists (k :: ia), ib. repeat split; [now constructor|exact Hb].
    + cbn in HO. destruct oa as [|x oa]; [discriminate|].
      cbn [consumed] in HL. destruct sha as [|n sha]; [discriminate|]. cbn [app] in H. inversion H as [| | |? ? ? ? ? i' ? k ps Hs Hx H1]; subst.
      destruct (IH b sha shb oa ob i') as (ia & ib & -> & Ha & Hb); [cbn in *; lia|cbn in *; lia|assumption|].
      exists (k :: ia), ib. repeat split; [econstructor; eassumption|exact Hb].
    + inversion H.
Qed.
Lemma extent_count : forall sl sh t, Extent sl sh t -> length t = length (filter (fun e => negb (is_int e)) sl).
Proof. intros sl sh t H. induction H; cbn; auto. Qed.
Lemma selects_length : forall sl sh o i, Selects sl sh o i -> length i = length sh.
Proof. intros sl sh o i H. induction H; cbn; auto. Qed.

(** ** The entry of the distributed axis *)
Definition consuming (e : ient) : Prop := match e with IInt _ | ISl _ => True | _ => False end.
Lemma split_entry : forall sl k, existsb is_ell sl = false -> k < consumed sl ->
  exists a e b, sl = a ++ e :: b /\ consumed a = k /\ consuming e.
Proof.
  induction sl as [|f sl IH]; intros k H Hk; [cbn in Hk; lia|]. cbn [existsb] in H. apply orb_false_iff in H. destruct H as [H1 H2].
  assert (IHS : forall j, k = (match f with IInt _ | ISl _ => S j | _ => j end) -> j < consumed sl ->
    exists a e b, f :: sl = a ++ e :: b /\ consumed a = k /\ consuming e).
  { intros j Ej Hj. destruct (IH j H2 Hj) as (a & e & b & -> & Ha & He). exists (f :: a), e, b. repeat split; [|exact He].
    subst k. destruct f; cbn [consumed]; congruence. }
  destruct f as [|z|s|]; [| | |discriminate]; cbn [consumed] in Hk.
  - now apply (IHS k).
  - destruct k as [|k]; [exists [], (IInt z), sl; repeat split|]. apply (IHS k); [reflexivity|lia].
  - destruct k as [|k]; [exists [], (ISl s), sl; repeat split|]. apply (IHS k); [reflexivity|lia].
Qed.
Lemma noell_app : forall a b, existsb is_ell (a ++ b) = false <-> existsb is_ell a = false /\ existsb is_ell b = false.
Proof. intros a b. rewrite existsb_app. apply orb_false_iff. Qed.
Lemma items_entry : forall a e b s, existsb is_ell (a ++ e :: b) = false -> consuming e ->
  items (a ++ e :: b) (seq s (consumed (a ++ e :: b)))
  = items a (seq s (consumed a)) ++ (Some (s + consumed a), e) :: items b (seq (S (s + consumed a)) (consumed b)).
Proof.
  intros a e b s H He. apply noell_app in H. destruct H as [Ha Hb].
  assert (EC : consumed (a ++ e :: b) = consumed a + S (consumed b)) by (rewrite consumed_app; destruct e; cbn; try contradiction; reflexivity).
  rewrite items_app by (auto; rewrite seq_length; lia). rewrite EC, seq_app.
  rewrite firstn_app, seq_length, Nat.sub_diag, firstn_O, app_nil_r, (firstn_all2 (seq s (consumed a))) by (rewrite seq_length; lia).
  rewrite skipn_app, seq_length, Nat.sub_diag, skipn_O, (skipn_all2 (seq s (consumed a))) by (rewrite seq_length; lia).
  cbn [app seq]. f_equal. destruct e; try contradiction; reflexivity.
Qed.
Lemma items_axes : forall sl axes x e, In (Some x, e) (items sl axes) -> In x axes.
Proof.
  induction sl as [|f sl IH]; intros axes x e H; [contradiction|]. destruct f; cbn [items] in H.
  - destruct H as [H|H]; [discriminate|eauto].
  - destruct axes as [|y axes]; [contradiction|]. destruct H as [H|H]; [left; congruence|right; eauto].
  - destruct axes as [|y axes]; [contradiction|]. destruct H as [H|H]; [left; congruence|right; eauto].
  - destruct axes as [|y axes]; [contradiction|]. destruct H as [H|H]; [left; congruence|right; eauto].
Qed.
Lemma whole_off : forall k its, (forall e, ~ In (Some k, e) its) -> map (whole_on k) its = its.
Proof.
  intros k its H. induction its as [|(x, e) its IH]; [reflexivity|]. cbn [map]. rewrite IH by (intros f Hf; apply (H f); now right).
  f_equal. unfold whole_on. cbn [fst]. destruct x as [y|]; [|reflexivity]. destruct (Nat.eqb_spec y k) as [->|]; [|reflexivity].
  exfalso. apply (H e). now left.
Qed.
Lemma axis_positions_entry : forall a e b s, existsb is_ell a = false -> consuming e ->
  nth_error (axis_positions s (a ++ e :: b)) (consumed a) = Some (s + length a).
Proof.
  induction a as [|f a IH]; intros e b s H He.
  - cbn [app consumed axis_positions length]. destruct e; try contradiction; cbn [is_new nth_error]; f_equal; lia.
  - cbn [existsb] in H. apply orb_false_iff in H. destruct H as [H1 H2].
    destruct f; try discriminate; cbn [app consumed axis_positions is_new nth_error length]; rewrite IH by auto; f_equal; lia.
Qed.
Lemma final_positions_entry : forall a e b o, is_int e = false ->
  nth_error (final_positions o (a ++ e :: b)) (length a) = Some (Some (o + length (filter (fun e => negb (is_int e)) a))).
Proof.
  induction a as [|f a IH]; intros e b o He.
  - cbn [app final_positions length filter]. rewrite He. cbn [nth_error]. do 2 f_equal. lia.
  - cbn [app final_positions length filter]. destruct (is_int f); cbn [negb nth_error length]; rewrite IH by auto; do 2 f_equal; lia.
Qed.
Lemma items_out : forall sl axes, existsb is_ell sl = false -> consumed sl = length axes ->
  length (filter (fun it : option nat * ient => match snd it with IInt _ => false | _ => true end) (items sl axes))
  = length (filter (fun e => negb (is_int e)) sl).
Proof.
  intros sl axes H HL. rewrite <- (items_snd sl axes H HL) at 2. generalize (items sl axes) as its.
  induction its as [|(x, e) its IH]; [reflexivity|]. cbn [map filter snd]. destruct e; cbn [is_int negb length]; rewrite IH; reflexivity.
Qed.

Section WithA.
Context {A : Type}.

Lemma split_start : forall c n, c_rank c < c_size c -> split_local n (c_rank c) (c_size c) = Ok (part c n, start c n, start c n + part c n).
Proof. intros c n H. rewrite split_local_closed by exact H. now rewrite start_of_S. Qed.

Lemma getitem_dist : forall c k (G : nd A) d sl R e,
  c_rank c < c_size c -> Part c k G d -> IndexOk sl (length (shp G)) ->
  In (Some k, e) (np_items sl (seq 0 (length (shp G)))) -> Whole e (part c (nth k (shp G) 0)) ->
  Indexed (entries_whole k sl (length (shp G))) G R ->
  exists d' p, getitem d sl = Ok (GDist d') /\ Part c p R d' /\ nth_error (np_out sl (length (shp G))) p = Some (Some k).
Proof.
  intros c k G d sl R e Hc HP HO Hin HW (HX & HE).
  pose proof HP as ((K & S1 & S2) & E1 & E2 & E3 & E4 & E5). set (n := nth k (shp G) 0) in *.
  assert (LD : length (shp (d_data d)) = length (shp G)) by (rewrite S1; apply length_set_nth).
  destruct (sanitize_form _ _ HO) as (sl' & Hs & Hell & Hcn & Hit).
  destruct (split_entry sl' k Hell ltac:(lia)) as (a & e0 & b & -> & Ca & Ce).
  pose proof (items_entry a e0 b 0 Hell Ce) as Hie. rewrite Hcn in Hie. cbn [Nat.add] in Hie. rewrite Ca in Hie.
  pose proof Hell as Hell'. apply noell_app in Hell'. destruct Hell' as [Hea Heb]. cbn [existsb] in Heb. apply orb_false_iff in Heb. destruct Heb as [_ Heb].
  assert (NA : forall f, ~ In (Some k, f) (items a (seq 0 k))).
  { intros f Hf. apply items_axes in Hf. apply in_seq in Hf. lia. }
  assert (NB : forall f, ~ In (Some k, f) (items b (seq (S k) (consumed b)))).
  { intros f Hf. apply items_axes in Hf. apply in_seq in Hf. lia. }
  assert (e0 = e).
  { rewrite Hit, Hie in Hin. apply in_app_iff in Hin. destruct Hin as [H|[H|H]]; [now apply NA in H|congruence|now apply NB in H]. }
  subst e0.
  assert (EW : entries_whole k sl (length (shp G)) = a ++ ISl full_slice :: b).
  { unfold entries_whole. rewrite Hit, Hie, map_app. cbn [map]. rewrite !whole_off by assumption.
    unfold whole_on at 1. cbn [fst]. rewrite Nat.eqb_refl, map_app. cbn [map snd].
    rewrite !items_snd; [reflexivity| | | |]; auto; rewrite seq_length; auto. }
  rewrite EW in HX, HE. destruct (nth_error_split (shp G) k (nth_error_nth' _ 0 K)) as (sha & shb & HSG & Lsha). fold n in HSG.
  rewrite HSG in HX. destruct (extent_app a _ sha _ _ ltac:(lia) HX) as (ta & tb' & HSR & Xa & Xb).
  inversion Xb as [| | |? ? ? ? tb ps Hps Xb']; subst sl0 s n0 sh tb'.
  destruct (whole_positions (ISl full_slice) n (or_introl eq_refl)) as (s0 & Es0 & Hs0). injection Es0 as <-.
  rewrite Hs0 in Hps. injection Hps as <-. rewrite map_length, seq_length in *.
  destruct (whole_positions e (part c n) HW) as (s & -> & Hsp).
  assert (XL : Extent (a ++ ISl s :: b) (shp (d_data d)) (ta ++ part c n :: tb)).
  { rewrite S1, HSG, <- Lsha, set_nth_app. apply app_extent; [exact Xa|].
    replace (part c n) with (length (map Z.of_nat (seq 0 (part c n)))) at 2 by (rewrite map_length, seq_length; reflexivity).
    constructor; assumption. }
  destruct (np_index_ok _ _ _ XL) as (g & Eg & Hg).
  set (p := length ta). set (r := mknd (ta ++ part c n :: tb) (fun idx => elt (d_data d) (g idx))).
  assert (np : nth p (shp R) 0 = n) by (rewrite HSR; subst p; apply nth_middle).
  assert (Cta : length ta = length (filter (fun e => negb (is_int e)) a)) by (eapply extent_count, Xa).
  assert (Sh : Share c p R r).
  { unfold Share. rewrite np. split; [rewrite HSR; subst p; rewrite app_length; cbn; lia|]. split.
    - cbn [shp r]. rewrite HSR. subst p. now rewrite set_nth_app.
    - intros o Ho. cbn [shp elt r] in *. destruct (Hg _ Ho) as [Hsel Hgi].
      apply Forall2_app_inv_r in Ho. destruct Ho as (oa & o' & Hoa & Ho' & ->).
      inversion Ho' as [|x m ob t2 Hx Hob]; subst m t2 o'. 
      assert (Loa : length oa = length ta) by (clear - Hoa; induction Hoa; cbn; congruence).
      subst p. rewrite <- Loa, shift_app.
      destruct (HE (oa ++ (x + start c n) :: ob)) as (i & Hi & Si & ->).
      { rewrite HSR. apply Forall2_app; [exact Hoa|]. constructor; [|exact Hob]. pose proof (start_part c n Hc). lia. }
      rewrite S2 by exact Hgi. f_equal.
      rewrite HSG in Si. apply selects_app in Si; [|lia|lia]. destruct Si as (ia & ib & -> & Sa & Sb).
      rewrite S1, HSG, <- Lsha, set_nth_app in Hsel. apply selects_app in Hsel; [|lia|lia]. destruct Hsel as (ja & jb & Ej & Ta & Tb).
      rewrite Ej. pose proof (selects_unique _ _ _ _ _ Sa Ta) as <-.
      inversion Sb as [| | |? ? ? ? ? i2 ? y ps2 Hp2 Hy Sb']; subst.
      inversion Tb as [| | |? ? ? ? ? j2 ? z ps3 Hp3 Hz Tb']; subst.
      pose proof (selects_unique _ _ _ _ _ Sb' Tb') as <-.
      rewrite Hs0 in Hp2. injection Hp2 as <-. rewrite Hsp in Hp3. injection Hp3 as <-.
      apply seq_at in Hy, Hz. subst y z. replace (consumed a) with (length ia) by (rewrite (selects_length _ _ _ _ Sa); lia). rewrite shift_app. reflexivity. }
  assert (MG : mpi_getitem sl (length (shp G)) k (part c n) = Ok (ToDist p)).
  { unfold mpi_getitem. rewrite Hs. cbn [rbind]. rewrite <- Ca at 1. rewrite axis_positions_entry by auto. cbn [Nat.add].
    rewrite nth_error_app2, Nat.sub_diag by lia. cbn [nth_error].
    replace (slice_is s None None || slice_is s (Some 0%Z) (Some (Z.of_nat (part c n)))) with true.
    - cbn [negb]. rewrite final_positions_entry by reflexivity. cbn [Nat.add]. rewrite <- Cta. reflexivity.
    - symmetry. apply orb_true_iff. destruct HW as [HW|HW]; injection HW as ->; [left|right]; now apply slice_is_spec. }
  exists (mkpart c p (shp R) r), p. split; [|split; [now apply mkpart_part|]].
  - unfold getitem. rewrite LD, E1, pyaxis_nat by exact K. cbn [rbind]. rewrite Hs. cbn [rbind].
    replace (nth k (shp (d_data d)) 0) with (part c n) by (rewrite S1, HSG, <- Lsha, set_nth_app; symmetry; apply nth_middle).
    rewrite MG. cbn [rbind]. unfold np_getitem. rewrite Eg. cbn [rbind]. fold r.
    destruct (Z.eqb_spec (Z.of_nat p) (Z.of_nat k)) as [Epk|Npk].
    + apply Nat2Z.inj in Epk. unfold array_finalize. rewrite E1, E2, pynth_nat, (nth_error_nth' _ 0 K). fold n.
      rewrite <- Epk in *. destruct Sh as (Kp & Sr & _).
      rewrite pyset_nat by (rewrite Sr, length_set_nth; exact Kp). cbn [rbind].
      rewrite E5. cbn [rank_of size_of]. rewrite split_start by exact Hc. cbn [rbind].
      rewrite pyset_nat by (rewrite repeat_length, Sr, length_set_nth; exact Kp). cbn [rbind].
      unfold mkpart. rewrite np. rewrite Sr, length_set_nth, <- np, set_nth_back by exact Kp. reflexivity.
    + cbn [shp r]. destruct (ta ++ part c n :: tb) eqn:Et; [destruct ta; discriminate|].
      rewrite <- Et in *. destruct Sh as (Kp & Sr & _).
      rewrite E2, E4, !pynth_nat, (nth_error_nth' _ 0 K). cbn [rbind].
      rewrite nth_error_set_nth, Nat.eqb_refl, (nth_error_nth' (repeat 0 (length (shp G))) 0) by (rewrite repeat_length; exact K).
      cbn [option_map rbind]. rewrite E5. fold n. rewrite <- np at 1 2. rewrite view_part by auto. reflexivity.
  - unfold np_out. rewrite Hit, Hie, filter_app, map_app. cbn [filter snd map fst].
    rewrite nth_error_app2; rewrite map_length, items_out by (rewrite ?seq_length; auto); subst p; rewrite Cta; [|lia].
    rewrite Nat.sub_diag. reflexivity.
Qed.
End WithA.
