(** Lemmas for C64 and C95. *)
From Coq Require Import String.
From Coq Require Import List Ascii Bool Arith Permutation Lia.
From Verif Require Import PyBase PyStr MemModel MemProofs2 AttrModel AttrProofs ContModel ContSpec ContProofs ContProofs2 GlobModel GlobProofs ZipModel ZipSpec.
Import ListNotations.
Open Scope list_scope.
Open Scope nat_scope.

(** * Lowest ranks *)
Definition uniq_inv (hosts : list str) (m : nat) (d : list (str * nat)) : Prop :=
  NoDup (map fst d) /\ forall h r, dget h d = Some r <-> (r < m /\ nth_error hosts r = Some h /\ forall q, q < r -> nth_error hosts q <> Some h).
Lemma unique_hosts_inv : forall hosts, uniq_inv hosts (length hosts) (unique_hosts hosts).
Proof.
  intros hosts. unfold unique_hosts, all_host_ranks.
  assert (X : forall rest done d, hosts = done ++ rest -> uniq_inv hosts (length done) d ->
    uniq_inv hosts (length hosts) (fold_left unique_step (combine rest (seq (length done) (length rest))) d)).
  { induction rest as [|h rest IH]; intros done d E I.
    - cbn. now rewrite app_nil_r in E; subst.
    - cbn [length seq combine fold_left]. specialize (IH (done ++ [h]) (unique_step d (h, length done))).
      rewrite app_length in IH. cbn [length] in IH. rewrite Nat.add_1_r in IH. apply IH; [now rewrite <- app_assoc|]. clear IH.
      assert (N : nth_error hosts (length done) = Some h) by (rewrite E, nth_error_app2, Nat.sub_diag by lia; reflexivity).
      destruct I as [ND I]. unfold unique_step. destruct (dget h d) as [q|] eqn:Q.
      + pose proof Q as Q'. apply I in Q as (Q1 & Q2 & Q3). rewrite (proj2 (Nat.ltb_ge (length done) q)) by lia. split; [exact ND|].
        intros k r. rewrite I. split; [intros (A & B); split; [lia|exact B]|]. intros (A & B & C). split; [|auto].
        destruct (Nat.eq_dec r (length done)) as [->|]; [|lia]. rewrite N in B. injection B as <-. destruct (C q Q1 Q2).
      + split; [now apply dput_nodup|]. intros k r. destruct (str_eq_dec k h) as [->|Hk].
        * rewrite dget_dput_same. split.
          -- intros K. injection K as <-. split; [lia|]. split; [exact N|]. intros q Hq Kq.
             assert (F : exists q0, q0 <= q /\ nth_error hosts q0 = Some h /\ forall p, p < q0 -> nth_error hosts p <> Some h).
             { clear -Kq. induction q as [q IH] using (well_founded_induction Wf_nat.lt_wf).
               destruct (Exists_dec (fun p => nth_error hosts p = Some h) (seq 0 q)) as [Ex|Ex].
               - intros p. destruct (nth_error hosts p) as [x|]; [|right; discriminate]. destruct (str_eq_dec x h) as [->|Hx]; [left; reflexivity|right; congruence].
               - apply Exists_exists in Ex as (p & Ip & Hp). apply in_seq in Ip. destruct (IH p ltac:(lia) Hp) as (q0 & L & R). exists q0. split; [lia|exact R].
               - exists q. split; [lia|]. split; [exact Kq|]. intros p Hp Kp. apply Ex, Exists_exists. exists p. split; [apply in_seq; lia|exact Kp]. }
             destruct F as (q0 & L & F1 & F2). assert (dget h d = Some q0) by (apply I; split; [lia|auto]). congruence.
          -- intros (A & B & C). f_equal. destruct (Nat.eq_dec r (length done)) as [->|]; [reflexivity|]. exfalso.
             assert (dget h d = Some r) by (apply I; split; [lia|auto]). congruence.
        * rewrite dget_dput_other by exact Hk. rewrite I. split; [intros (A & B); split; [lia|exact B]|]. intros (A & B & C). split; [|auto].
          destruct (Nat.eq_dec r (length done)) as [->|]; [|lia]. rewrite N in B. injection B as <-. now destruct Hk. }
  apply (X hosts [] []); [reflexivity|]. split; [constructor|]. intros h r. cbn. split; [discriminate|lia].
Qed.
Lemma lowest_iff : forall hosts h r, dget h (unique_hosts hosts) = Some r <-> nth_error hosts r = Some h /\ forall q, q < r -> nth_error hosts q <> Some h.
Proof.
  intros hosts h r. destruct (unique_hosts_inv hosts) as [_ I]. rewrite I. split; [tauto|]. intros [A B]. split; [|auto].
  apply nth_error_Some. congruence.
Qed.
Lemma sorted_hosts_nodup : forall hosts, NoDup (sort_names (map fst (unique_hosts hosts))).
Proof. intros hosts. apply listed_nodup, sort_listed. apply unique_hosts_inv. Qed.
Lemma sorted_hosts_length : forall hosts, length (sort_names (map fst (unique_hosts hosts))) = num_hosts hosts.
Proof.
  intros hosts. unfold num_hosts, sort_names. rewrite <- (Permutation_length (py_sorted_perm _ _)), map_length. reflexivity.
Qed.
Lemma host_rank_iff : forall hosts r k, host_rank hosts r = Some k <->
  exists h, nth_error hosts r = Some h /\ dget h (unique_hosts hosts) = Some r /\ nth_error (sort_names (map fst (unique_hosts hosts))) k = Some h.
Proof.
  intros hosts r k. unfold host_rank. split.
  - destruct (nth_error hosts r) as [h|]; [|discriminate]. destruct (dget h (unique_hosts hosts)) as [q|] eqn:E; [|discriminate].
    destruct (q =? r) eqn:Q; [|discriminate]. apply Nat.eqb_eq in Q. subst q. intros K. apply index_name_some in K as [K _]. eauto.
  - intros (h & -> & -> & N). rewrite Nat.eqb_refl. apply index_name_some. split; [exact N|]. intros j Hj K.
    assert (j = k); [|lia]. eapply (proj1 (NoDup_nth_error _) (sorted_hosts_nodup hosts)); [apply nth_error_Some; congruence|congruence].
Qed.
Lemma host_rank_lowest : forall hosts r k, host_rank hosts r = Some k -> Lowest hosts r.
Proof. intros hosts r k H. apply host_rank_iff in H as (h & E & D & _). apply lowest_iff in D as [D1 D2]. exists h. auto. Qed.
Lemma host_rank_inj : forall hosts r r' k, host_rank hosts r = Some k -> host_rank hosts r' = Some k -> r = r'.
Proof. intros hosts r r' k H H'. apply host_rank_iff in H as (h & _ & D & N). apply host_rank_iff in H' as (h' & _ & D' & N'). congruence. Qed.
Lemma host_rank_lt : forall hosts r k, host_rank hosts r = Some k -> k < num_hosts hosts /\ r < length hosts.
Proof.
  intros hosts r k H. apply host_rank_iff in H as (h & N & D & K). split; [|apply nth_error_Some; congruence].
  rewrite <- sorted_hosts_length. apply nth_error_Some. congruence.
Qed.
Lemma host_rank_onto : forall hosts k, k < num_hosts hosts -> exists r, host_rank hosts r = Some k.
Proof.
  intros hosts k H. rewrite <- sorted_hosts_length in H. apply nth_error_Some in H.
  destruct (nth_error (sort_names (map fst (unique_hosts hosts))) k) as [h|] eqn:E; [|congruence].
  assert (I : In h (map fst (unique_hosts hosts))) by (apply in_sort; eapply nth_error_In; eauto).
  apply dget_in in I as [r D]. exists r. apply host_rank_iff. exists h. split; [apply lowest_iff in D; tauto|auto].
Qed.
Lemma lowest_has_rank : forall hosts r, Lowest hosts r -> exists k, host_rank hosts r = Some k.
Proof.
  intros hosts r (h & N & L). assert (D : dget h (unique_hosts hosts) = Some r) by (apply lowest_iff; auto).
  assert (I : In h (sort_names (map fst (unique_hosts hosts)))) by (apply in_sort, dget_in; eauto).
  apply In_nth_error in I as [k K]. exists k. apply host_rank_iff. eauto.
Qed.
Lemma num_hosts_pos : forall hosts, hosts <> [] -> 0 < num_hosts hosts.
Proof.
  intros [|h hosts] H; [contradiction|]. destruct (lowest_has_rank (h :: hosts) 0) as [k K].
  - exists h. split; [reflexivity|]. lia.
  - apply host_rank_lt in K. lia.
Qed.

(** * Dealing out *)
Lemma stride_nth : forall (A : Type) n (l : list A) w j, 0 < n -> nth_error (stride w n l) j = nth_error l (w + j * n).
Proof.
  induction l as [|x l IH]; intros w j Hn; [destruct j; destruct (w + _); reflexivity|]. cbn [stride]. destruct w as [|w].
  - destruct j as [|j]; [reflexivity|]. cbn [nth_error]. rewrite IH by lia. cbn [plus Nat.mul].
    replace (n + j * n) with (S (n - 1 + j * n)) by lia. reflexivity.
  - rewrite IH by lia. reflexivity.
Qed.
Lemma stride_map : forall (A B : Type) (f : A -> B) n l w, stride w n (map f l) = map f (stride w n l).
Proof. induction l as [|x l IH]; intros w; [reflexivity|]. cbn [map stride]. destruct w; cbn [map]; now rewrite IH. Qed.
Lemma flat_map_seq_S : forall (A : Type) (f : nat -> list A) n a, flat_map f (seq a (S n)) = flat_map f (seq a n) ++ f (a + n).
Proof. intros A f n a. rewrite seq_S, flat_map_app. cbn. now rewrite app_nil_r. Qed.
Lemma stride_all : forall (A : Type) n (l : list A), 0 < n -> Permutation (flat_map (fun k => stride k n l) (seq 0 n)) l.
Proof.
  intros A n l Hn. destruct n as [|n]; [lia|]. clear Hn. induction l as [|x l IH].
  - cbn [stride]. induction (seq 0 (S n)); [reflexivity|]. cbn. exact IHl.
  - cbn [seq flat_map stride]. rewrite Nat.sub_succ, Nat.sub_0_r. cbn [app]. constructor. rewrite <- seq_shift, flat_map_concat_map, map_map, <- flat_map_concat_map.
    cbn [stride]. rewrite flat_map_seq_S in IH. cbn [plus] in IH. eapply Permutation_trans; [apply Permutation_app_comm|exact IH].
Qed.
Definition ranks_of (hosts : list str) : list nat :=
  flat_map (fun r => match host_rank hosts r with Some k => [k] | None => [] end) (seq 0 (length hosts)).
Lemma ranks_perm : forall hosts, Permutation (ranks_of hosts) (seq 0 (num_hosts hosts)).
Proof.
  intros hosts. apply NoDup_Permutation; [|apply seq_NoDup|].
  - unfold ranks_of. assert (N := seq_NoDup (length hosts) 0). induction (seq 0 (length hosts)) as [|r l IH]; [constructor|]. inversion N; subst. cbn [flat_map].
    destruct (host_rank hosts r) as [k|] eqn:E; [|auto]. cbn [app]. constructor; [|auto]. intros I. apply in_flat_map in I as (r' & I' & J).
    destruct (host_rank hosts r') as [k'|] eqn:E'; [|destruct J]. destruct J as [<-|[]]. assert (r = r') by (eapply host_rank_inj; eauto). congruence.
  - intros k. split; intros I.
    + apply in_flat_map in I as (r & _ & J). destruct (host_rank hosts r) as [k'|] eqn:E; [|destruct J]. destruct J as [<-|[]]. apply host_rank_lt in E. apply in_seq. lia.
    + apply in_seq in I. destruct (host_rank_onto hosts k ltac:(lia)) as [r E]. apply in_flat_map. exists r. rewrite E. split; [|now left].
      apply host_rank_lt in E. apply in_seq. lia.
Qed.
Lemma assigned_all : forall (A : Type) hosts (l : list A), hosts <> [] -> Permutation (flat_map (fun r => assigned hosts r l) (seq 0 (length hosts))) l.
Proof.
  intros A hosts l H. assert (E : flat_map (fun r => assigned hosts r l) (seq 0 (length hosts)) = flat_map (fun k => stride k (num_hosts hosts) l) (ranks_of hosts)).
  { unfold ranks_of, assigned. induction (seq 0 (length hosts)) as [|r rs IH]; [reflexivity|]. cbn [flat_map]. rewrite flat_map_app, <- IH. f_equal.
    destruct (host_rank hosts r); cbn [flat_map]; [now rewrite app_nil_r|reflexivity]. }
  rewrite E. eapply Permutation_trans; [apply Permutation_flat_map, ranks_perm|]. apply stride_all. now apply num_hosts_pos.
Qed.

(** * The file system *)
Section Zip.
Context {V : Type}.
Variable zips_ok : str -> bool.
Variable remove : bool.
Notation zfs := (@zfs V).
Lemma archive_inj : forall a b, archive a = archive b -> a = b.
Proof. intros a b H. now apply app_inv_tail in H. Qed.
Lemma zip_all_ok : forall l (fs : zfs), NoDup l -> (forall c, In c l -> zarr_name c /\ z_dir fs c <> None /\ zips_ok c = true) ->
  exists fs', zip_all zips_ok remove l fs = Ok fs' /\
    (forall c, In c l -> z_zip fs' (archive c) = z_dir fs c /\ z_dir fs' c = if remove then None else z_dir fs c) /\
    (forall c, ~ In c l -> z_dir fs' c = z_dir fs c) /\
    (forall s, (forall c, In c l -> s <> archive c) -> z_zip fs' s = z_zip fs s).
Proof.
  induction l as [|c l IH]; intros fs N H.
  - exists fs. split; [reflexivity|]. split; [intros ? []|]. auto.
  - inversion N as [|? ? Hc Nl]; subst. destruct (H c (or_introl eq_refl)) as (Z & D & O). cbn [zip_all]. unfold zip_one.
    apply endswith_iff in Z. rewrite Z, O. cbn [negb]. destruct (z_dir fs c) as [v|] eqn:E; [|contradiction]. cbn [rbind].
    set (fs1 := mkzfs _ _). destruct (IH fs1 Nl) as (fs' & R & P1 & P2 & P3).
    { intros b Hb. destruct (H b (or_intror Hb)) as (Zb & Db & Ob). split; [auto|]. split; [|auto].
      cbn [fs1 z_dir]. destruct remove; [|exact Db]. unfold put. destruct (seqb b c) eqn:K; [apply seqb_eq in K; subst; contradiction|exact Db]. }
    exists fs'. split; [exact R|]. split; [|split].
    + intros b [<-|Hb].
      * split.
        -- rewrite P3; [cbn [fs1 z_zip]; unfold put, archive; now rewrite seqb_refl|]. intros b Hb K. apply archive_inj in K. congruence.
        -- rewrite P2 by exact Hc. cbn [fs1 z_dir]. rewrite E. destruct remove; [unfold put; now rewrite seqb_refl|exact E].
      * destruct (P1 b Hb) as [Q1 Q2]. assert (F : z_dir fs1 b = z_dir fs b).
        { cbn [fs1 z_dir]. destruct remove; [|reflexivity]. unfold put. destruct (seqb b c) eqn:K; [apply seqb_eq in K; subst; contradiction|reflexivity]. }
        rewrite F in Q1, Q2. auto.
    + intros b Hb. rewrite P2 by (intros K; apply Hb; now right). cbn [fs1 z_dir]. destruct remove; [|reflexivity].
      unfold put. destruct (seqb b c) eqn:K; [apply seqb_eq in K; subst; destruct Hb; now left|reflexivity].
    + intros s Hs. rewrite P3 by (intros b Hb; apply Hs; now right). cbn [fs1 z_zip]. unfold put.
      destruct (seqb s (c ++ s_ ".zip")) eqn:K; [apply seqb_eq in K; destruct (Hs c (or_introl eq_refl) K)|reflexivity].
Qed.
End Zip.

(** * Waiting *)
Lemma wait_loop_ok : forall ex l n, (forall h c, In h l -> h_code h = Some c -> c = 0 /\ ex (h_file h) = true) -> wait_loop ex l n = (Ok (n + length l), n + length l).
Proof.
  induction l as [|h l IH]; intros n H; cbn [wait_loop length]; [now rewrite Nat.add_0_r|].
  assert (K : wait_loop ex l (S n) = (Ok (n + S (length l)), n + S (length l))).
  { rewrite IH by (intros x c I; apply H; now right). now rewrite <- plus_n_Sm. }
  destruct (h_code h) as [c|] eqn:E; [|exact K]. destruct (H h c (or_introl eq_refl) E) as [-> ->]. exact K.
Qed.
Lemma wait_loop_err : forall ex l n h c, In h l -> h_code h = Some c -> (c <> 0 \/ ex (h_file h) = false) -> fst (wait_loop ex l n) = Err RuntimeError.
Proof.
  induction l as [|x l IH]; intros n h c I E B; [destruct I|]. cbn [wait_loop]. destruct I as [->|I].
  - rewrite E. replace (negb (c =? 0) || negb (ex (h_file h))) with true; [reflexivity|].
    symmetry. apply orb_true_iff. destruct B as [B|B]; [left; apply negb_true_iff, Nat.eqb_neq; exact B|right; now rewrite B].
  - destruct (h_code x) as [d|]; [destruct (negb (d =? 0) || negb (ex (h_file x))); [reflexivity|]|]; eapply IH; eauto.
Qed.
Lemma wait_all : forall hs hs0 l, hs0 = Some l -> fold_left wait_next hs hs0 = Some (l ++ hs).
Proof. induction hs as [|h hs IH]; intros hs0 l ->; cbn [fold_left]; [now rewrite app_nil_r|]. erewrite IH; [|reflexivity]. now rewrite <- app_assoc. Qed.
