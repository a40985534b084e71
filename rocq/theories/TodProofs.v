From Coq Require Import List ZArith Bool Lia.
From Verif Require Import PyBase TodModel TodSpec.
Import ListNotations.
Open Scope nat_scope.

Lemma np_set_next : forall {A} (w v : list A) k,
  length v <= k ->
  np_set (map Some w ++ repeat None k) (Z.of_nat (length w)) (Z.of_nat (length w + length v)) v
  = Ok (map Some (w ++ v) ++ repeat None (k - length v)).
Proof.
  intros A w v k H. unfold np_set. rewrite app_length, map_length, repeat_length, !Nat2Z.id.
  replace (Nat.min (length w) (length w + k)) with (length w) by lia.
  replace (Nat.max (length w) (Nat.min (length w + length v) (length w + k))) with (length w + length v) by lia.
  replace (length w + length v - length w) with (length v) by lia. rewrite Nat.eqb_refl. f_equal.
  replace (length w) with (length (map Some w)) by apply map_length.
  rewrite firstn_app, Nat.sub_diag, firstn_all, firstn_O, app_nil_r.
  rewrite map_app, <- app_assoc. f_equal. f_equal.
  rewrite skipn_app, skipn_all2 by lia. cbn [app].
  replace (length (map Some w) + length v - length (map Some w)) with (length v) by lia.
  clear - H. revert H. generalize (length v). intros m. revert k.
  induction m as [|m IH]; intros k H; [rewrite Nat.sub_0_r; reflexivity|].
  destruct k; [lia|]. cbn [repeat skipn Nat.sub]. apply IH. lia.
Qed.

(** The state after [cur] of the concatenated elements. *)
Definition wrote (S T cur : nat) : nat := Nat.max S (Nat.min T cur).
Definition st {A} (S T cur : nat) (F : list A) : list (option A) :=
  map Some (lslice S (wrote S T cur) F) ++ repeat None (T - wrote S T cur).

Lemma lslice_mid : forall {A} (d f r : list A) a b,
  b <= length f -> lslice (length d + a) (length d + b) (d ++ f ++ r) = lslice a b f.
Proof.
  intros A d f r a b H. unfold lslice.
  replace (length d + b - (length d + a)) with (b - a) by lia.
  rewrite skipn_app, skipn_all2 by lia. cbn [app].
  replace (length d + a - length d) with a by lia.
  destruct (Nat.le_gt_cases a b) as [Hab|Hab].
  - rewrite skipn_app, firstn_app. rewrite skipn_length.
    replace (b - a - (length f - a)) with 0 by lia. rewrite firstn_O, app_nil_r. reflexivity.
  - replace (b - a) with 0 by lia. reflexivity.
Qed.

Lemma st_step : forall {A} (S T : nat) (d f r : list A),
  S <= T <= length (d ++ f ++ r) -> length d < T -> S < length d + length f ->
  let '((ilo, ihi), (olo, ohi)) := get_in_out_slice (Z.of_nat S) (Z.of_nat T) (Z.of_nat (length d)) (Z.of_nat (length f)) in
  np_set (st S T (length d) (d ++ f ++ r)) olo ohi (np_get f ilo ihi)
  = Ok (st S T (length d + length f) (d ++ f ++ r)).
Proof.
  intros A S T d f r HST Hd Hs. cbn [get_in_out_slice].
  set (F := d ++ f ++ r) in *. assert (HF : length F = length d + length f + length r)
    by (unfold F; rewrite !app_length; lia).
  set (c := wrote S T (length d)). set (c' := wrote S T (length d + length f)).
  assert (Hc : c = Nat.max S (length d)) by (unfold c, wrote; lia).
  assert (Hc' : c' = Nat.min T (length d + length f)) by (unfold c', wrote; lia).
  assert (Hw : length (lslice S c F) = c - S) by (rewrite length_lslice; lia).
  unfold np_get.
  set (v := lslice _ _ f).
  assert (Hv : v = lslice c c' F).
  { unfold v, F.
    replace c with (length d + (c - length d)) by lia. replace c' with (length d + (c' - length d)) by lia.
    rewrite lslice_mid by lia. f_equal; lia. }
  assert (Hlv : length v = c' - c) by (rewrite Hv, length_lslice; lia).
  unfold st. fold c. fold c'.
  assert (E1 : Z.max 0 (Z.of_nat (length d) - Z.of_nat S) = Z.of_nat (length (lslice S c F))) by lia.
  assert (E2 : Z.min (Z.of_nat T - Z.of_nat S) (Z.of_nat (length d) - Z.of_nat S + Z.of_nat (length f))
               = Z.of_nat (length (lslice S c F) + length v)) by lia.
  rewrite E1, E2. rewrite np_set_next by lia. f_equal. rewrite Hv at 1. rewrite lslice_app by lia.
  f_equal. f_equal. lia.
Qed.

Lemma st_same : forall {A} (S T cur n : nat) (F : list A),
  S <= T -> T <= cur \/ cur + n <= S -> st S T (cur + n) F = st S T cur F.
Proof. intros A S T cur n F H1 H2. unfold st. replace (wrote S T (cur + n)) with (wrote S T cur); [reflexivity|]. unfold wrote. lia. Qed.

Lemma np_empty_ok : forall {A} S T, S <= T ->
  @np_empty A (Z.of_nat T - Z.of_nat S) = Ok (repeat None (T - S)).
Proof.
  intros A S T H. unfold np_empty. destruct (Z.ltb_spec (Z.of_nat T - Z.of_nat S) 0); [lia|].
  f_equal. f_equal. lia.
Qed.

Lemma repeat_st : forall {A} (S T cur : nat) (F : list A), S <= T -> wrote S T cur = S ->
  repeat None (T - S) = st S T cur F.
Proof. intros A S T cur F H E. unfold st. rewrite E, lslice_empty by lia. reflexivity. Qed.

(** The dataset: created or not. *)
Definition dst {B} (S T cur : nat) (F : list B) (d : option (list (option B))) : Prop :=
  d = Some (st S T cur F) \/ d = None /\ wrote S T cur = S.

Lemma concat_loop_ok : forall {A B} (S T : nat) (files : list (todfile A B)) (da : list A) (db : list B)
  dset,
  let FA := da ++ all_index files in
  let FB := db ++ all_data files in
  length db = length da ->
  (forall f, In f files -> length (f_data f) = length (f_index f)) ->
  S <= T <= length FA -> dst S T (length da) FB dset ->
  exists d', concat_loop (Z.of_nat S) (Z.of_nat T) (Z.of_nat (length da)) files
               (st S T (length da) FA) dset
             = Ok (st S T (length FA) FA, d') /\ dst S T (length FA) FB d'.
Proof.
  intros A B S T files. induction files as [|f files IH]; intros da db dset FA FB Hlen Hok HST Hd.
  - unfold FA, FB in *. cbn [all_index all_data flat_map concat_loop] in *. rewrite !app_nil_r in *.
    exists dset. split; [reflexivity|exact Hd].
  - cbn [concat_loop].
    assert (Hf : length (f_data f) = length (f_index f)) by (apply Hok; left; reflexivity).
    assert (EA : FA = (da ++ f_index f) ++ all_index files)
      by (unfold FA; cbn [all_index flat_map]; rewrite <- app_assoc; reflexivity).
    assert (EB : FB = (db ++ f_data f) ++ all_data files)
      by (unfold FB; cbn [all_data flat_map]; rewrite <- app_assoc; reflexivity).
    assert (HS : exists d1, concat_step (Z.of_nat S) (Z.of_nat T) (Z.of_nat (length da)) f
                   (st S T (length da) FA) dset
                 = Ok (st S T (length (da ++ f_index f)) FA, d1)
                 /\ dst S T (length (da ++ f_index f)) FB d1).
    { unfold concat_step. rewrite app_length.
      destruct (Z.leb_spec (Z.of_nat T) (Z.of_nat (length da))) as [H1|H1]; cbn [orb].
      { exists dset. rewrite st_same by lia. split; [reflexivity|].
        destruct Hd as [->|(-> & W)]; [left; rewrite st_same by lia; reflexivity|].
        right. split; [reflexivity|]. unfold wrote in *. lia. }
      destruct (Z.leb_spec (Z.of_nat (length da) + Z.of_nat (length (f_index f))) (Z.of_nat S)) as [H2|H2].
      { exists dset. rewrite st_same by lia. split; [reflexivity|].
        destruct Hd as [->|(-> & W)]; [left; rewrite st_same by lia; reflexivity|].
        right. split; [reflexivity|]. unfold wrote in *. lia. }
      pose proof (st_step S T da (f_index f) (all_index files)) as SA.
      pose proof (st_step S T db (f_data f) (all_data files)) as SB.
      assert (LFB : length FB = length FA).
      { unfold FA, FB. rewrite !app_length. f_equal; [exact Hlen|].
        clear - Hok. induction (f :: files) as [|g l IHl]; [reflexivity|].
        cbn [all_index all_data flat_map]. rewrite !app_length. f_equal; [apply Hok; left; reflexivity|].
        apply IHl. intros h Hh. apply Hok. right. exact Hh. }
      change (da ++ f_index f ++ all_index files) with FA in SA.
      change (db ++ f_data f ++ all_data files) with FB in SB.
      specialize (SA ltac:(lia) ltac:(lia) ltac:(lia)).
      specialize (SB ltac:(lia) ltac:(lia) ltac:(lia)).
      rewrite Hf, Hlen in SB.
      destruct (get_in_out_slice _ _ _ _) as ((ilo, ihi), (olo, ohi)).
      rewrite SA. cbn [rbind].
      exists (Some (st S T (length da + length (f_index f)) FB)). split; [|left; reflexivity].
      destruct Hd as [->|(-> & W)].
      - cbn [rbind]. rewrite SB. reflexivity.
      - rewrite np_empty_ok by lia. cbn [rbind]. rewrite (repeat_st S T (length da) FB) by (lia || exact W).
        rewrite SB. reflexivity. }
    destruct HS as (d1 & HS1 & HS2). rewrite HS1. cbn [rbind].
    rewrite <- Nat2Z.inj_add, <- app_length. rewrite EA, EB in *.
    apply IH; [rewrite !app_length; lia| |exact HST|exact HS2].
    intros g Hg. apply Hok. right. exact Hg.
Qed.

Lemma ntime_fold : forall {A B} (files : list (todfile A B)) t,
  fold_left (fun t f => (t + Z.of_nat (length (f_index f)))%Z) files t
  = (t + Z.of_nat (length (all_index files)))%Z.
Proof.
  intros A B files. induction files as [|f files IH]; intros t; cbn [fold_left all_index flat_map length]; [lia|].
  rewrite IH. unfold all_index. rewrite app_length. lia.
Qed.

Lemma len_data : forall {A B} (files : list (todfile A B)),
  (forall f, In f files -> length (f_data f) = length (f_index f)) ->
  length (all_data files) = length (all_index files).
Proof.
  intros A B files. induction files as [|g l IHl]; intros Hok; [reflexivity|].
  cbn [all_index all_data flat_map]. rewrite !app_length. f_equal; [apply Hok; left; reflexivity|].
  apply IHl. intros h Hh. apply Hok. right. exact Hh.
Qed.

Lemma concatenate_unfold : forall {A B} (files : list (todfile A B)) a b,
  files <> [] ->
  concatenate files a b =
  (let '(start, stop) := start_stop_inds a b (Z.of_nat (length (all_index files))) in
   rbind (np_empty (stop - start)) (fun imap => concat_loop start stop 0 files imap None)).
Proof.
  intros A B files a b H. unfold concatenate. destruct files as [|f files]; [contradiction|].
  rewrite ntime_fold. reflexivity.
Qed.

Lemma st_final : forall {A} S T (F : list A), S <= T <= length F ->
  st S T (length F) F = map Some (lslice S T F).
Proof.
  intros A S T F H. unfold st. assert (E : wrote S T (length F) = T) by (unfold wrote; lia).
  rewrite E, Nat.sub_diag. cbn [repeat]. apply app_nil_r.
Qed.

Lemma concat_ST : forall {A B} (files : list (todfile A B)) a b S T,
  FilesOk files ->
  start_stop_inds a b (Z.of_nat (length (all_index files))) = (Z.of_nat S, Z.of_nat T) ->
  S <= T <= length (all_index files) ->
  exists d, concatenate files a b = Ok (map Some (lslice S T (all_index files)), d)
    /\ (d = Some (map Some (lslice S T (all_data files))) \/ d = None /\ S = T).
Proof.
  intros A B files a b S T (Hne & Hok) HE HST.
  rewrite concatenate_unfold by exact Hne. rewrite HE. cbn beta iota.
  rewrite np_empty_ok by lia. cbn [rbind].
  assert (W0 : wrote S T 0 = S) by (unfold wrote; lia).
  rewrite (repeat_st S T 0 (all_index files)) by (lia || exact W0).
  destruct (concat_loop_ok S T files [] [] None eq_refl Hok) as (d & H1 & H2).
  - exact HST.
  - right. split; [reflexivity|exact W0].
  - cbn [app length] in H1, H2. exists d. split.
    + etransitivity; [exact H1|]. rewrite st_final by exact HST. reflexivity.
    + pose proof (len_data files Hok) as HL. rewrite <- HL in H2. rewrite <- HL in HST.
      destruct H2 as [->|(-> & W)].
      * left. rewrite st_final by exact HST. reflexivity.
      * right. split; [reflexivity|]. unfold wrote in W. lia.
Qed.

Lemma py_slice_lslice : forall {A} a b (l : list A) S T,
  start_stop_inds a b (Z.of_nat (length l)) = (Z.of_nat S, Z.of_nat T) ->
  S <= T <= length l ->
  py_slice a b l = lslice S T l.
Proof.
  intros A a b l S T HE HST. unfold py_slice, lslice.
  assert (EA : bound (length l) 0 a = S).
  { injection HE as HA _. destruct a as [z|]; cbn [bound]; [|lia]. unfold clip.
    destruct (Z.ltb_spec z 0); lia. }
  assert (EB : bound (length l) (length l) b = T).
  { injection HE as _ HB. destruct b as [z|]; cbn [bound]; [|lia]. unfold clip.
    destruct (Z.ltb_spec z 0); [lia|]. destruct (Z.ltb_spec (Z.of_nat (length l)) z); lia. }
  rewrite EA, EB. reflexivity.
Qed.

Lemma inds_ok : forall n a b, StartIn n a -> InOrder n a b ->
  exists S T, start_stop_inds a b (Z.of_nat n) = (Z.of_nat S, Z.of_nat T) /\ S <= T <= n.
Proof.
  intros n a b HA HO. unfold InOrder, resolve in HO. unfold StartIn in HA. unfold start_stop_inds.
  exists (Z.to_nat (fst (start_stop_inds a b (Z.of_nat n)))), (Z.to_nat (snd (start_stop_inds a b (Z.of_nat n)))).
  unfold start_stop_inds. cbn [fst snd].
  destruct a as [z|], b as [y|].
  all: repeat match goal with
    | |- context[(?x <? 0)%Z] => destruct (Z.ltb_spec x 0)
    | |- context[(?x <? ?y)%Z] => destruct (Z.ltb_spec x y)
    | H : context[(?x <? 0)%Z] |- _ => destruct (Z.ltb_spec x 0) end.
  all: try (split; [f_equal; lia|lia]); lia.
Qed.

Lemma concatenate_slice : forall {A B} (files : list (todfile A B)) a b,
  FilesOk files -> StartIn (length (all_index files)) a -> InOrder (length (all_index files)) a b ->
  exists d, concatenate files a b = Ok (map Some (py_slice a b (all_index files)), d)
    /\ (d = Some (map Some (py_slice a b (all_data files)))
        \/ d = None /\ py_slice a b (all_data files) = []).
Proof.
  intros A B files a b HF HA HO.
  destruct (inds_ok _ _ _ HA HO) as (S & T & HE & HST).
  destruct (concat_ST files a b S T HF HE HST) as (d & H1 & H2).
  exists d. pose proof (len_data files (proj2 HF)) as HL.
  rewrite (py_slice_lslice a b (all_index files) S T HE HST).
  rewrite (py_slice_lslice a b (all_data files) S T) by (rewrite HL; assumption).
  split; [exact H1|]. destruct H2 as [->|(-> & ->)]; [left; reflexivity|right].
  split; [reflexivity|]. apply lslice_empty. lia.
Qed.

Lemma concatenate_disorder : forall {A B} (files : list (todfile A B)) a b,
  files <> [] -> ~ InOrder (length (all_index files)) a b ->
  concatenate files a b = Err ValueError.
Proof.
  intros A B files a b Hne HO. rewrite concatenate_unfold by exact Hne.
  destruct (start_stop_inds a b (Z.of_nat (length (all_index files)))) as (S, T) eqn:E.
  assert (HL : (T < S)%Z).
  { unfold InOrder, resolve in HO. unfold start_stop_inds in E. injection E as <- <-.
    destruct a as [z|], b as [y|].
    all: repeat match goal with
      | |- context[(?x <? 0)%Z] => destruct (Z.ltb_spec x 0)
      | |- context[(?x <? ?y)%Z] => destruct (Z.ltb_spec x y) end; lia. }
  unfold np_empty. destruct (Z.ltb_spec (T - S) 0); [reflexivity|lia].
Qed.

(** *** Time selection *)
Lemma where_from : forall {A} (P : A -> bool) (l : list A) s,
  map fst (filter (fun p => P (snd p)) (combine (seq s (length l)) l))
  = filter (fun i => match nth_error l (i - s) with Some x => P x | None => false end) (seq s (length l)).
Proof.
  intros A P l. induction l as [|x l IH]; intros s; [reflexivity|].
  cbn [length seq combine filter snd]. rewrite Nat.sub_diag. cbn [nth_error].
  assert (E : filter (fun i => match nth_error (x :: l) (i - s) with Some x => P x | None => false end) (seq (S s) (length l))
            = filter (fun i => match nth_error l (i - S s) with Some x => P x | None => false end) (seq (S s) (length l))).
  { apply filter_ext_in. intros i Hi. apply in_seq in Hi. replace (i - s) with (S (i - S s)) by lia. reflexivity. }
  rewrite E, <- IH. destruct (P x); reflexivity.
Qed.

Lemma where_in : forall {A} (P : A -> bool) (l : list A) i,
  In i (where_ P l) <-> exists x, nth_error l i = Some x /\ P x = true.
Proof.
  intros A P l i. unfold where_, enumerate. rewrite where_from, filter_In, in_seq, Nat.sub_0_r. split.
  - intros (_ & H). destruct (nth_error l i) as [x|]; [|discriminate]. exists x. split; [reflexivity|exact H].
  - intros (x & H & Hp). rewrite H. split; [|exact Hp]. split; [lia|].
    apply nth_error_Some. cbn. rewrite H. discriminate.
Qed.

Lemma first_of_where : forall {A} (P : A -> bool) (l : list A) i,
  first_of (where_ P l) = Ok i ->
  In i (where_ P l) /\ forall j, In j (where_ P l) -> i <= j.
Proof.
  intros A P l i. unfold where_, enumerate. rewrite where_from.
  assert (G : forall (Q : nat -> bool) n s, match filter Q (seq s n) with
     | [] => True | i :: t => forall j, In j (i :: t) -> i <= j end).
  { intros Q n. induction n as [|n IH]; intros s; cbn [seq filter]; [exact I|].
    destruct (Q s); [|apply IH]. intros j [->|Hj]; [lia|]. apply filter_In in Hj as (Hj & _).
    apply in_seq in Hj. lia. }
  match goal with |- context [filter ?q ?s] => specialize (G q (length l) 0); destruct (filter q s) end;
    cbn [first_of]; [discriminate|].
  intros H. injection H as <-. split; [left; reflexivity|exact G].
Qed.
Lemma first_of_none : forall l, (forall i, ~ In i l) -> first_of l = Err IndexError.
Proof. destruct l; intros H; [reflexivity|]. exfalso. apply (H n). left. reflexivity. Qed.
Lemma first_of_some : forall l i, In i l -> exists j, first_of l = Ok j.
Proof. destruct l; intros i H; [contradiction|]. eexists. reflexivity. Qed.

Lemma last_of_where : forall {A} (P : A -> bool) (l : list A) i,
  last_of (where_ P l) = Ok i ->
  In i (where_ P l) /\ forall j, In j (where_ P l) -> j <= i.
Proof.
  intros A P l i. unfold where_, enumerate. rewrite where_from. unfold last_of.
  assert (G : forall (Q : nat -> bool) n, match rev (filter Q (seq 0 n)) with
     | [] => True | i :: t => forall j, In j (i :: t) -> j <= i end).
  { intros Q n. induction n as [|n IH]; [exact I|]. rewrite seq_S, filter_app, rev_app_distr. cbn [filter Nat.add].
    destruct (Q n); cbn [rev app]; [|exact IH]. intros j [->|Hj]; [lia|].
    apply in_rev, filter_In in Hj as (Hj & _). apply in_seq in Hj. lia. }
  match goal with |- context [filter ?q ?s] => specialize (G q (length l)); 
     pose proof (fun x => in_rev (filter q s) x) as HR; destruct (rev (filter q s)) eqn:E end;
    cbn [first_of]; [discriminate|].
  intros H. injection H as <-. split; [apply HR; left; reflexivity|].
  intros j Hj. apply G, HR, Hj.
Qed.

Lemma select_range : forall time t0 t1 sel,
  Ascending time -> (t0 <= t1)%Z ->
  (exists i x, nth_error time i = Some x /\ (t0 <= x)%Z) ->
  (exists i x, nth_error time i = Some x /\ (x < t1)%Z) ->
  exists start stop, select_time_range time sel (Some t0) (Some t1) = Ok (Z.of_nat start, Z.of_nat stop)
    /\ start <= stop <= length time
    /\ forall i x, nth_error time i = Some x -> (start <= i < stop <-> (t0 <= x < t1)%Z).
Proof.
  intros time t0 t1 sel HA Ht (i0 & x0 & N0 & G0) (i1 & x1 & N1 & G1).
  assert (I0 : In i0 (where_ (fun t => (t0 <=? t)%Z) time)).
  { apply where_in. exists x0. split; [exact N0|apply Z.leb_le; exact G0]. }
  assert (I1 : In i1 (where_ (fun t => (t <? t1)%Z) time)).
  { apply where_in. exists x1. split; [exact N1|apply Z.ltb_lt; exact G1]. }
  destruct (first_of_some _ _ I0) as (s & Hs).
  destruct (first_of_some (rev (where_ (fun t => (t <? t1)%Z) time)) i1) as (e & He).
  { apply -> in_rev. exact I1. }
  fold (last_of (where_ (fun t => (t <? t1)%Z) time)) in He.
  destruct (first_of_where _ _ _ Hs) as (S1 & S2). destruct (last_of_where _ _ _ He) as (E1 & E2).
  apply where_in in S1 as (xs & NS & Gs). apply Z.leb_le in Gs.
  apply where_in in E1 as (xe & NE & Ge). apply Z.ltb_lt in Ge.
  assert (LS : s < length time) by (apply nth_error_Some; rewrite NS; discriminate).
  assert (LE : e < length time) by (apply nth_error_Some; rewrite NE; discriminate).
  exists s, (e + 1). unfold select_time_range. rewrite Hs, He. cbn [rbind].
  split; [do 2 f_equal; lia|]. split; [split; [|lia]|].
  - (* if the last time before t1 is at position e < s - 1, the next one is >= t1 >= t0 *)
    destruct (Nat.le_gt_cases s (e + 1)) as [|Hgt]; [assumption|].
    destruct (nth_error time (e + 1)) as [y|] eqn:NY; [|apply nth_error_None in NY; lia].
    destruct (Z.lt_ge_cases y t1) as [Hy|Hy].
    + exfalso. assert (In (e + 1) (where_ (fun t => (t <? t1)%Z) time)) as HI.
      { apply where_in. exists y. split; [exact NY|apply Z.ltb_lt; exact Hy]. }
      specialize (E2 _ HI). lia.
    + exfalso. assert (In (e + 1) (where_ (fun t => (t0 <=? t)%Z) time)) as HI.
      { apply where_in. exists y. split; [exact NY|apply Z.leb_le; lia]. }
      specialize (S2 _ HI). lia.
  - intros i x N. split.
    + intros (L1 & L2). split.
      * destruct (Nat.eq_dec i s) as [->|Hne]; [congruence|].
        apply Z.le_trans with xs; [exact Gs|]. apply (HA s i); [lia|exact NS|exact N].
      * destruct (Nat.eq_dec i e) as [->|Hne]; [congruence|].
        apply Z.le_lt_trans with xe; [|exact Ge]. apply (HA i e); [lia|exact N|exact NE].
    + intros (G2 & G3). split.
      * apply S2. apply where_in. exists x. split; [exact N|apply Z.leb_le; exact G2].
      * assert (i <= e); [|lia]. apply E2. apply where_in. exists x. split; [exact N|apply Z.ltb_lt; exact G3].
Qed.

Lemma select_none : forall time t0 t1 sel,
  (forall i x, nth_error time i = Some x -> (x < t0)%Z) \/ (forall i x, nth_error time i = Some x -> (t1 <= x)%Z) ->
  select_time_range time sel (Some t0) (Some t1) = Err IndexError.
Proof.
  intros time t0 t1 sel H. unfold select_time_range.
  destruct H as [H|H].
  - rewrite first_of_none; [reflexivity|]. intros i Hi. apply where_in in Hi as (x & N & G).
    apply Z.leb_le in G. specialize (H _ _ N). lia.
  - destruct (first_of (where_ (fun t => (t0 <=? t)%Z) time)) as [i|e] eqn:E; cbn [rbind].
    + unfold last_of. rewrite first_of_none; [reflexivity|]. intros j Hj.
      apply in_rev in Hj. apply where_in in Hj as (x & N & G).
      apply Z.ltb_lt in G. specialize (H _ _ N). lia.
    + destruct (where_ (fun t => (t0 <=? t)%Z) time); cbn in E; congruence.
Qed.

Lemma filter_range : forall (P : Z -> bool) l a b,
  (forall i x, nth_error l i = Some x -> (a <= i < b <-> P x = true)) ->
  lslice a b l = filter P l.
Proof.
  intros P l. induction l as [|x l IH]; intros a b H.
  - unfold lslice. rewrite skipn_nil, firstn_nil. reflexivity.
  - cbn [filter]. pose proof (H 0 x eq_refl) as H0.
    assert (H' : forall i y, nth_error l i = Some y -> (a - 1 <= i < b - 1 <-> P y = true) \/ True) by tauto.
    destruct (P x) eqn:E.
    + assert (a = 0) by (destruct H0 as (_ & H0); specialize (H0 eq_refl); lia). subst a.
      assert (0 < b) by (destruct H0 as (_ & H0); specialize (H0 eq_refl); lia).
      unfold lslice. rewrite Nat.sub_0_r. destruct b as [|b]; [lia|]. cbn [skipn firstn]. f_equal.
      specialize (IH 0 b). unfold lslice in IH. rewrite Nat.sub_0_r in IH. apply IH.
      intros i y N. specialize (H (S i) y N). rewrite <- H. lia.
    + destruct a as [|a].
      * (* b = 0 *)
        assert (b = 0). { destruct b as [|b]; [reflexivity|]. destruct H0 as (H0 & _). specialize (H0 ltac:(lia)). discriminate. }
        subst b. unfold lslice. cbn [Nat.sub firstn].
        specialize (IH 0 0). unfold lslice in IH. cbn [Nat.sub firstn] in IH. apply IH.
        intros i y N. specialize (H (S i) y N). rewrite <- H. lia.
      * unfold lslice. destruct b as [|b].
        -- cbn [Nat.sub firstn]. specialize (IH 0 0). unfold lslice in IH. cbn [Nat.sub firstn] in IH. apply IH.
           intros i y N. specialize (H (S i) y N). rewrite <- H. lia.
        -- cbn [skipn Nat.sub]. specialize (IH a b). unfold lslice in IH. apply IH.
           intros i y N. specialize (H (S i) y N). rewrite <- H. lia.
Qed.

Lemma reader_select_read : forall {B} (files : list (todfile Z B)) t0 t1 sel,
  FilesOk files -> Ascending (all_index files) -> (t0 <= t1)%Z ->
  (exists x, In x (all_index files) /\ (t0 <= x)%Z) ->
  (exists x, In x (all_index files) /\ (x < t1)%Z) ->
  exists sel' d, select_time_range (reader_time files) sel (Some t0) (Some t1) = Ok sel'
   /\ reader_read files sel' = Ok (map Some (filter (fun t => (t0 <=? t)%Z && (t <? t1)%Z) (all_index files)), d).
Proof.
  intros B files t0 t1 sel HF HA Ht (x0 & I0 & G0) (x1 & I1 & G1).
  apply In_nth_error in I0 as (i0 & N0). apply In_nth_error in I1 as (i1 & N1).
  assert (ER : reader_time files = all_index files).
  { unfold reader_time, all_index. symmetry. apply flat_map_concat_map. }
  rewrite ER.
  destruct (select_range (all_index files) t0 t1 sel HA Ht) as (s & e & H1 & H2 & H3).
  - exists i0, x0. tauto.
  - exists i1, x1. tauto.
  - destruct (concat_ST files (Some (Z.of_nat s)) (Some (Z.of_nat e)) s e HF) as (d & Hd & _).
    + unfold start_stop_inds. destruct (Z.ltb_spec (Z.of_nat s) 0); [lia|].
      destruct (Z.ltb_spec (Z.of_nat e) 0); [lia|].
      destruct (Z.ltb_spec (Z.of_nat (length (all_index files))) (Z.of_nat e)); [lia|reflexivity].
    + exact H2.
    + exists (Z.of_nat s, Z.of_nat e), d. split; [exact H1|].
      unfold reader_read. cbn [fst snd]. rewrite Hd. do 3 f_equal.
      apply filter_range. intros i x N. rewrite (H3 i x N), andb_true_iff, Z.leb_le, Z.ltb_lt. tauto.
Qed.
