(** C64 and C95: zipping over hosts. *)
From Coq Require Import String.
From Coq Require Import List Ascii Bool Arith Permutation Lia.
From Verif Require Import PyBase PyStr MemModel ContModel GlobModel GlobProofs ZipModel ZipSpec ZipProofs.
Import ListNotations.
Open Scope list_scope.
Open Scope nat_scope.

(** * C64 *)
(** Every entry of the list goes to exactly one rank, the lowest of its host. *)
Theorem C64_dealt : forall (A : Type) hosts (containers : list A), hosts <> [] ->
  Permutation (flat_map (fun r => assigned hosts r containers) (seq 0 (length hosts))) containers.
Proof. exact assigned_all. Qed.
Print Assumptions C64_dealt.
Theorem C64_once : forall (A : Type) hosts (containers : list A) x, hosts <> [] -> NoDup containers -> In x containers ->
  exists r, Lowest hosts r /\ In x (assigned hosts r containers) /\ forall r', In x (assigned hosts r' containers) -> r' = r.
Proof.
  intros A hosts l x H N I. pose proof (assigned_all A hosts l H) as P.
  assert (J : In x (flat_map (fun r => assigned hosts r l) (seq 0 (length hosts)))) by (eapply Permutation_in; [apply Permutation_sym, P|exact I]).
  apply in_flat_map in J as (r & _ & J). exists r. split; [|split; [exact J|]].
  - unfold assigned in J. destruct (host_rank hosts r) as [k|] eqn:E; [|destruct J]. eapply host_rank_lowest; eauto.
  - intros r' J'. unfold assigned in J, J'. destruct (host_rank hosts r) as [k|] eqn:E; [|destruct J]. destruct (host_rank hosts r') as [k'|] eqn:E'; [|destruct J'].
    apply In_nth_error in J as [j J]. apply In_nth_error in J' as [j' J']. pose proof (num_hosts_pos hosts H) as Hn.
    rewrite stride_nth in J, J' by exact Hn. apply host_rank_lt in E as K. apply host_rank_lt in E' as K'.
    assert (k + j * num_hosts hosts = k' + j' * num_hosts hosts).
    { eapply (proj1 (NoDup_nth_error l) N); [apply nth_error_Some; congruence|congruence]. }
    assert (k = k'); [|subst; eapply host_rank_inj; eauto].
    rewrite <- (Nat.mod_small k (num_hosts hosts)), <- (Nat.mod_small k' (num_hosts hosts)) by lia.
    rewrite <- (Nat.mod_add k j (num_hosts hosts)), <- (Nat.mod_add k' j' (num_hosts hosts)) by lia. now f_equal.
Qed.
Print Assumptions C64_once.
(** In whatever order the ranks do their work, every container ends up in its
    archive, with its contents, and nothing else changes. *)
Theorem C64_result : forall (V : Type) zips_ok remove hosts containers (fs : @zfs V) steps, hosts <> [] -> NoDup containers ->
  (forall c, In c containers -> zarr_name c /\ z_dir fs c <> None /\ zips_ok c = true) ->
  Permutation steps (flat_map (fun r => assigned hosts r containers) (seq 0 (length hosts))) ->
  exists fs', zip_all zips_ok remove steps fs = Ok fs' /\
    (forall c, In c containers -> z_zip fs' (archive c) = z_dir fs c /\ z_dir fs' c = if remove then None else z_dir fs c) /\
    (forall c, ~ In c containers -> z_dir fs' c = z_dir fs c) /\
    (forall s, (forall c, In c containers -> s <> archive c) -> z_zip fs' s = z_zip fs s).
Proof.
  intros V zo rm hosts l fs steps H N Hc P. assert (Q : Permutation steps l) by (eapply Permutation_trans; [exact P|now apply assigned_all]).
  destruct (zip_all_ok zo rm steps fs) as (fs' & R & P1 & P2 & P3).
  - eapply Permutation_NoDup; [apply Permutation_sym, Q|exact N].
  - intros c I. apply Hc. eapply Permutation_in; eauto.
  - exists fs'. split; [exact R|]. split; [intros c I; apply P1; eapply Permutation_in; [apply Permutation_sym, Q|exact I]|].
    split; [intros c I; apply P2; intros K; apply I; eapply Permutation_in; eauto|].
    intros s Hs. apply P3. intros c I. apply Hs. eapply Permutation_in; eauto.
Qed.
Print Assumptions C64_result.
(** A container listed twice is worked on twice: with [remove] this fails. *)
Theorem C64_listed_twice_refuted : exists (hosts : list str) containers (fs : @zfs nat),
  (forall c, In c containers -> zarr_name c /\ z_dir fs c <> None) /\
  assigned hosts 0 containers = [s_ "a.zarr"] /\ assigned hosts 1 containers = [s_ "a.zarr"] /\
  zip_all (fun _ => true) true (flat_map (fun r => assigned hosts r containers) [0; 1]) fs = Err ValueError.
Proof.
  exists [s_ "n1"; s_ "n2"], [s_ "a.zarr"; s_ "a.zarr"], (mkzfs (fun s => if seqb s (s_ "a.zarr") then Some 1 else None) (fun _ => None)).
  split; [|repeat split].
  intros c [<-|[<-|[]]]; (split; [apply endswith_iff; reflexivity|discriminate]).
Qed.
Print Assumptions C64_listed_twice_refuted.
(** Example: five ranks on three hosts, not in order. *)
Definition z_hosts := [s_ "n3"; s_ "n1"; s_ "n3"; s_ "n2"; s_ "n1"].
Example C64_example : map (fun r => assigned z_hosts r [10; 11; 12; 13; 14; 15; 16]) (seq 0 5) = [[12; 15]; [10; 13; 16]; []; [11; 14]; []].
Proof. reflexivity. Qed.
Example C64_example_lowest : Lowest z_hosts 3 /\ ~ Lowest z_hosts 4.
Proof.
  split.
  - exists (s_ "n2"). split; [reflexivity|]. intros [|[|[|r]]] Hr; try discriminate. lia.
  - intros (h & E & L). injection E as <-. apply (L 1); [lia|reflexivity].
Qed.

(** * C95 *)
(** Every saved container is zipped by one rank, the hosts taking turns. *)
Theorem C95_one_job : forall hosts n, hosts <> [] ->
  exists r, starts hosts r n = true /\ Lowest hosts r /\ forall r', starts hosts r' n = true -> r' = r.
Proof.
  intros hosts n H. pose proof (num_hosts_pos hosts H) as Hn.
  destruct (host_rank_onto hosts (n mod num_hosts hosts)) as [r E]; [apply Nat.mod_upper_bound; lia|].
  exists r. unfold starts. rewrite E, Nat.eqb_refl. split; [reflexivity|]. split; [eapply host_rank_lowest; eauto|].
  intros r' S'. destruct (host_rank hosts r') as [k|] eqn:E'; [|discriminate]. apply Nat.eqb_eq in S'. subst k. eapply host_rank_inj; eauto.
Qed.
Print Assumptions C95_one_job.
Theorem C95_in_turn : forall hosts r n m, starts hosts r n = true -> n <= m -> m < n + num_hosts hosts -> starts hosts r m = true -> m = n.
Proof.
  intros hosts r n m Sn L U Sm. unfold starts in *. destruct (host_rank hosts r) as [k|] eqn:E; [|discriminate].
  apply Nat.eqb_eq in Sn, Sm. apply host_rank_lt in E as [E _]. set (N := num_hosts hosts) in *.
  pose proof (Nat.div_mod n N ltac:(lia)). pose proof (Nat.div_mod m N ltac:(lia)). rewrite <- Sn in *. rewrite <- Sm in *.
  assert (m / N = n / N \/ n / N < m / N \/ m / N < n / N) as [K|[K|K]] by lia.
  - rewrite K in *. lia.
  - nia.
  - nia.
Qed.
Print Assumptions C95_in_turn.
(** [finish] of the waiting task succeeds exactly if all jobs of the rank did. *)
Theorem C95_waits_partial : forall exists_ h hs, let got := fold_left wait_next (h :: hs) None in
  (wait_finish exists_ got = Ok (length (h :: hs)) /\ forall x c, In x (h :: hs) -> h_code x = Some c -> c = 0 /\ exists_ (h_file x) = true) \/
  (wait_finish exists_ got = Err RuntimeError /\ exists x c, In x (h :: hs) /\ h_code x = Some c /\ (c <> 0 \/ exists_ (h_file x) = false)).
Proof.
  intros ex h hs got. assert (G : got = Some (h :: hs)) by (unfold got; cbn [fold_left]; erewrite wait_all; [|reflexivity]; reflexivity).
  rewrite G. cbn [wait_finish]. set (l := h :: hs) in *. clearbody l. clear G got h hs.
  assert (D : (forall x c, In x l -> h_code x = Some c -> c = 0 /\ ex (h_file x) = true) \/
              (exists x c, In x l /\ h_code x = Some c /\ (c <> 0 \/ ex (h_file x) = false))).
  { induction l as [|y l IH]; [left; intros ? ? []|]. destruct (h_code y) as [c|] eqn:E.
    - destruct (Nat.eq_dec c 0) as [->|Hc]; [|right; exists y, c; split; [now left|auto]].
      destruct (ex (h_file y)) eqn:F; [|right; exists y, 0; split; [now left|auto]].
      destruct IH as [IH|(x & c & I & X)]; [|right; exists x, c; split; [now right|exact X]].
      left. intros x c [<-|I] K; [rewrite E in K; injection K as <-; auto|eauto].
    - destruct IH as [IH|(x & c & I & X)]; [|right; exists x, c; split; [now right|exact X]].
      left. intros x c [<-|I] K; [congruence|eauto]. }
  destruct D as [D|(x & c & I & E & B)].
  - left. rewrite wait_loop_ok by exact D. auto.
  - right. split; [eapply wait_loop_err; eauto|eauto].
Qed.
Print Assumptions C95_waits_partial.
(** With nothing to wait for it fails. *)
Theorem C95_nothing_refuted : exists exists_, wait_finish exists_ (fold_left wait_next [] None) = Err TypeError.
Proof. exists (fun _ => true). reflexivity. Qed.
Print Assumptions C95_nothing_refuted.
(** A failed job is known to one rank only; it leaves the others at a barrier
    which it never enters. *)
Theorem C95_others_hang_refuted : exists exists_ file code,
  wait_loop exists_ [mkhandle file (Some code)] 0 = (Err RuntimeError, 0) /\ wait_loop exists_ [mkhandle file None] 0 = (Ok 1, 1).
Proof. exists (fun _ => true), (s_ "a.zarr.zip"), 2. split; reflexivity. Qed.
Print Assumptions C95_others_hang_refuted.
Theorem C95_name : forall name, (exists t, name = t ++ s_ ".zarr.zip" /\ zip_output_name name = Ok (t ++ s_ ".zarr")) \/
  ((forall t, name <> t ++ s_ ".zarr.zip") /\ zip_output_name name = Err CaputConfigError).
Proof.
  intros name. unfold zip_output_name. destruct (endswith (s_ ".zarr.zip") name) eqn:E.
  - left. apply endswith_iff in E as [t ->]. exists t. split; [reflexivity|]. rewrite app_length. cbn [s_ list_ascii_of_string length].
    replace (length t + 9 - 4) with (length t + 5) by lia. rewrite firstn_app_2. reflexivity.
  - right. split; [|reflexivity]. intros t K. assert (endswith (s_ ".zarr.zip") name = true) by (apply endswith_iff; eauto). congruence.
Qed.
Print Assumptions C95_name.
Example C95_example : map (fun n => filter (fun r => starts z_hosts r n) (seq 0 5)) (seq 0 4) = [[1]; [3]; [0]; [1]] /\
  zip_output_name (s_ "out_{tag}.zarr.zip") = Ok (s_ "out_{tag}.zarr") /\
  wait_finish (fun _ => true) (fold_left wait_next [mkhandle (s_ "a") None; mkhandle (s_ "b") (Some 0)] None) = Ok 2 /\
  wait_finish (fun _ => true) (fold_left wait_next [mkhandle (s_ "a") (Some 1); mkhandle (s_ "b") (Some 0)] None) = Err RuntimeError.
Proof. repeat split. Qed.
