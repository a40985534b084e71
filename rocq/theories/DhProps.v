(** Dataset handles: C241-C260. *)
From Coq Require Import String.
From Coq Require Import List Ascii Bool Arith ZArith Lia.
From Verif Require Import PyBase PyStr PartModel PartProofs MemModel FmtModel DhModel DhSpec DhProofs DhProofs2 DhProofs3 DhProofs4.
Import ListNotations.
Open Scope list_scope.
Open Scope nat_scope.

(** Without redistributions every program of lookups, views, copies, reads, writes
    and attributes goes as if a handle were a name and a copy a value. *)
Theorem C241_handles_are_names : forall csize nroots os,
  no_name_twice os -> never is_delete os -> never is_redist os ->
  snd (run csize (start nroots) os) = snd (arun csize (astart nroots) os).
Proof.
  intros csize nroots os N D R. apply (sim_run_plain csize os (fun _ => None) _ _ []); auto.
  - apply rel_start.
  - apply named_start.
Qed.
Print Assumptions C241_handles_are_names.

Definition x_ := s_ "x".
Definition y_ := s_ "y".
Definition prog1 : list op :=
  [ New 0 x_ [2; 2] [1; 2; 3; 4]%Z (Some 0) no_settings; Lookup 0 x_; Lookup 0 x_; Copy (Hand 0); View (Hand 2);
    Write (Hand 0) 1 20%Z; SetAttr (Hand 1) y_ 5%Z; Read (Hand 1) 1; Read (Hand 2) 1; Write (Hand 3) 0 7%Z;
    Read (Hand 2) 0; Read (Base 0 x_) 0; GetAttr (Base 0 x_) y_; GetAttr (Hand 2) y_; GetAxis (Hand 3); Read (Hand 1) 4 ].
Example C241_example :
  snd (run 4 (start 1) prog1)
  = [Done; Done; Done; Done; Done; Done; Done; Val 20%Z; Val 2%Z; Done; Val 7%Z; Val 1%Z; Val 5%Z; Raised KeyError;
     Axis (Some 0); Raised IndexError]
  /\ no_name_twice prog1 /\ never is_delete prog1 /\ never is_redist prog1.
Proof.
  split; [reflexivity|]. split; [repeat constructor; intros []|].
  split; intros o H; cbn in H; repeat destruct H as [<-|H]; try reflexivity; destruct H.
Qed.

(** With one process, redistributing what stands for a name is no exception, as the
    memory stays; only [distributed_axis] is not seen by all. *)
Theorem C242_single_process : forall nroots os,
  no_name_twice os -> never is_delete os -> never is_getaxis os -> names_redistributed 1 (astart nroots) os ->
  snd (run 1 (start nroots) os) = snd (arun 1 (astart nroots) os).
Proof.
  intros nroots os N D G R. apply (sim_run_single os (fun _ => None) _ _ []); auto.
  - apply rel_start.
  - apply named_start.
Qed.
Print Assumptions C242_single_process.

Definition prog2 : list op :=
  [ New 0 x_ [2; 2] [1; 2; 3; 4]%Z (Some 0) no_settings; Lookup 0 x_; Lookup 0 x_; Redist (Hand 0) 1;
    Write (Hand 0) 0 9%Z; Read (Hand 1) 0; Redist (Hand 1) 2; Read (Base 0 x_) 0 ].
Example C242_example :
  snd (run 1 (start 1) prog2) = [Done; Done; Done; Done; Done; Val 9%Z; Raised AxisException; Val 9%Z]
  /\ no_name_twice prog2 /\ never is_delete prog2 /\ never is_getaxis prog2 /\ names_redistributed 1 (astart 1) prog2.
Proof.
  split; [reflexivity|]. split; [repeat constructor; intros []|].
  split; [intros o H; cbn in H; repeat destruct H as [<-|H]; try reflexivity; destruct H|].
  split; [intros o H; cbn in H; repeat destruct H as [<-|H]; try reflexivity; destruct H|].
  cbn. tauto.
Qed.

(** Redistributing a looked-up dataset: it and the dataset in the storage get the
    same new array with the old contents; nothing else changes. *)
Theorem C243_redistribute : forall csize st i d r base x b axis q,
  nth_error (hands st) i = Some d -> d_root d = Some r -> a_axis (d_data d) = Some q ->
  deref st (Base r (d_name d)) = Ok base -> a_axis (d_data base) = Some x ->
  nth_error (bufs st) (a_buf (d_data base)) = Some b -> axis < length (b_shape b) ->
  exists st' a, redistribute csize st (Hand i) axis = Ok st'
    /\ a_axis a = Some axis /\ nth_error (bufs st') (a_buf a) = Some b
    /\ deref st' (Base r (d_name d)) = Ok (set_data base a) /\ deref st' (Hand i) = Ok (set_data d a)
    /\ (forall r' n', (r', n') <> (r, d_name d) -> deref st' (Base r' n') = deref st (Base r' n'))
    /\ (forall j, j <> i -> deref st' (Hand j) = deref st (Hand j))
    /\ atts st' = atts st /\ (forall j b0, nth_error (bufs st) j = Some b0 -> nth_error (bufs st') j = Some b0).
Proof. exact redistribute_handle. Qed.
Print Assumptions C243_redistribute.
(** The dataset is no longer in its group, or is a common one. *)
Theorem C243_removed : forall csize st i d r q axis,
  nth_error (hands st) i = Some d -> d_root d = Some r -> a_axis (d_data d) = Some q -> r < length (roots st) ->
  (forall base, deref st (Base r (d_name d)) <> Ok base) ->
  redistribute csize st (Hand i) axis = Err KeyError.
Proof.
  intros csize st i d r q axis H Hr Hq L N. unfold redistribute. cbn [deref]. rewrite H. cbn [rbind]. rewrite Hq, Hr.
  cbn [deref] in N. destruct (nth_error (roots st) r) as [l|] eqn:E; [|apply nth_error_None in E; lia].
  destruct (dget (d_name d) l) as [b|]; [exfalso; apply (N b); reflexivity|reflexivity].
Qed.
Print Assumptions C243_removed.
Theorem C243_common : forall csize st x d axis, deref st x = Ok d -> a_axis (d_data d) = None ->
  redistribute csize st x axis = Err AttributeError.
Proof. intros csize st x d axis H N. unfold redistribute. rewrite H. cbn. rewrite N. reflexivity. Qed.
Print Assumptions C243_common.
Example C243_example :
  snd (run 4 (start 1) [New 0 x_ [2; 2] [1; 2; 3; 4]%Z (Some 0) no_settings; Lookup 0 x_; Redist (Hand 0) 1; GetAxis (Base 0 x_);
                        GetAxis (Hand 0); Read (Hand 0) 3; Write (Hand 0) 3 8%Z; Read (Base 0 x_) 3; Delete 0 x_; Redist (Hand 0) 0;
                        New 0 y_ [1] [1]%Z None no_settings; Redist (Base 0 y_) 0])
  = [Done; Done; Done; Axis (Some 1); Axis (Some 1); Val 4%Z; Done; Val 8%Z; Done; Raised KeyError; Done; Raised AttributeError].
Proof. reflexivity. Qed.

(** With more processes the other handles keep the old array: what is written later
    is not seen through them. *)
Definition prog3 : list op :=
  [ New 0 x_ [2; 2] [1; 2; 3; 4]%Z (Some 0) no_settings; Lookup 0 x_; Lookup 0 x_; Redist (Hand 0) 1; Write (Hand 0) 0 9%Z; Read (Hand 1) 0 ].
Theorem C244_stale_refuted : exists os, no_name_twice os /\ never is_delete os /\ never is_getaxis os
  /\ forall csize, csize <> 1 -> names_redistributed csize (astart 1) os
       /\ snd (run csize (start 1) os) <> snd (arun csize (astart 1) os).
Proof.
  exists prog3. split; [repeat constructor; intros []|].
  split; [intros o H; cbn in H; repeat destruct H as [<-|H]; try reflexivity; destruct H|].
  split; [intros o H; cbn in H; repeat destruct H as [<-|H]; try reflexivity; destruct H|].
  intros csize N. split; [cbn; tauto|].
  assert (E : snd (run csize (start 1) prog3) = [Done; Done; Done; Done; Done; Val 1%Z]).
  { destruct csize as [|[|c]]; [reflexivity|congruence|reflexivity]. }
  rewrite E. cbn. discriminate.
Qed.
Print Assumptions C244_stale_refuted.
Example C244_example :
  snd (run 2 (start 1) prog3) = [Done; Done; Done; Done; Done; Val 1%Z]
  /\ snd (arun 2 (astart 1) prog3) = [Done; Done; Done; Done; Done; Val 9%Z].
Proof. split; reflexivity. Qed.

(** Even one process does not see the new axis through the other handles. *)
Theorem C245_axis_refuted : exists os, no_name_twice os /\ never is_delete os
  /\ forall csize, names_redistributed csize (astart 1) os /\ snd (run csize (start 1) os) <> snd (arun csize (astart 1) os).
Proof.
  exists [ New 0 x_ [2; 2] [1; 2; 3; 4]%Z (Some 0) no_settings; Lookup 0 x_; Lookup 0 x_; Redist (Hand 0) 1; GetAxis (Hand 1) ].
  split; [repeat constructor; intros []|].
  split; [intros o H; cbn in H; repeat destruct H as [<-|H]; try reflexivity; destruct H|].
  intros csize. split; [cbn; tauto|].
  match goal with |- snd (run _ _ ?p) <> _ => assert (E : snd (run csize (start 1) p) = [Done; Done; Done; Done; Axis (Some 0)]) end.
  { destruct csize as [|[|c]]; reflexivity. }
  rewrite E. cbn. discriminate.
Qed.
Print Assumptions C245_axis_refuted.
Example C245_example :
  snd (arun 1 (astart 1) [ New 0 x_ [2; 2] [1; 2; 3; 4]%Z (Some 0) no_settings; Lookup 0 x_; Lookup 0 x_; Redist (Hand 0) 1; GetAxis (Hand 1) ])
  = [Done; Done; Done; Done; Axis (Some 1)].
Proof. reflexivity. Qed.

(** A copy of a looked-up dataset still knows the place of the original:
    redistributing the copy redistributes the original and throws the values of the
    copy away. *)
Definition prog4 : list op :=
  [ New 0 x_ [2; 2] [1; 2; 3; 4]%Z (Some 0) no_settings; Lookup 0 x_; Copy (Hand 0); Write (Hand 1) 0 9%Z; Read (Hand 1) 0;
    Redist (Hand 1) 1; Read (Hand 1) 0; GetAxis (Base 0 x_) ].
Theorem C246_copy_redistribute_refuted : exists os, no_name_twice os /\ never is_delete os /\
  (forall csize, snd (run csize (start 1) os) = [Done; Done; Done; Done; Val 9%Z; Done; Val 1%Z; Axis (Some 1)])
  /\ forall csize, snd (arun csize (astart 1) os) = [Done; Done; Done; Done; Val 9%Z; Done; Val 9%Z; Axis (Some 0)].
Proof.
  exists prog4. split; [repeat constructor; intros []|].
  split; [intros o H; cbn in H; repeat destruct H as [<-|H]; try reflexivity; destruct H|].
  split; [|intros; reflexivity].
  intros [|[|c]]; reflexivity.
Qed.
Print Assumptions C246_copy_redistribute_refuted.
(** A copy of the dataset in the storage is independent, also in this. *)
Theorem C246_copy_of_stored_partial : forall csize st r n d b a axis x st1 d1 i,
  deref st (Base r n) = Ok d -> d_root d = None -> a_axis (d_data d) = Some x ->
  nth_error (bufs st) (a_buf (d_data d)) = Some b -> nth_error (atts st) (d_attrs d) = Some a -> axis < length (b_shape b) ->
  deep_copy st d = Ok (st1, d1) -> i = length (hands st1) ->
  exists st2 a', redistribute csize (add_hand st1 d1) (Hand i) axis = Ok st2
    /\ deref st2 (Base r n) = Ok d /\ nth_error (bufs st2) (a_buf (d_data d)) = Some b
    /\ deref st2 (Hand i) = Ok (set_data d1 a') /\ a_axis a' = Some axis /\ nth_error (bufs st2) (a_buf a') = Some b
    /\ a_buf a' <> a_buf (d_data d).
Proof.
  intros csize st r n d b a axis x st1 d1 i H Hr Hx Hb Ha La E ->. unfold deep_copy in E. rewrite Hb, Ha in E. injection E; intros <- <-.
  clear E. unfold redistribute. cbn [add_hand deref bufs atts roots hands]. rewrite nth_app_end. cbn [rbind d_data a_axis d_root].
  rewrite Hx, Hr. unfold arr_redist. cbn [a_axis a_buf]. rewrite nth_app_end. pose proof La as La'. apply Nat.ltb_lt in La. rewrite La.
  pose proof (nth_some_lt _ _ _ _ Hb) as Lb.
  destruct (x =? axis) eqn:Ex; [|destruct (csize =? 1)]; cbn [rbind].
  - apply Nat.eqb_eq in Ex. subst x. eexists. exists (Arr (length (bufs st)) (Some axis)). split; [reflexivity|]. cbn.
    repeat split; auto using nth_app_end, nth_app_old; try lia.
    rewrite lset_same by (rewrite app_length; cbn; lia). reflexivity.
  - eexists. exists (Arr (length (bufs st)) (Some axis)). split; [reflexivity|]. cbn.
    repeat split; auto using nth_app_end, nth_app_old; try lia.
    rewrite lset_same by (rewrite app_length; cbn; lia). reflexivity.
  - eexists. exists (Arr (length (bufs st ++ [b])) (Some axis)). split; [reflexivity|]. cbn.
    repeat split; auto using nth_app_end, nth_app_old.
    + rewrite lset_same by (rewrite app_length; cbn; lia). reflexivity.
    + rewrite app_length. cbn. lia.
Qed.
Print Assumptions C246_copy_of_stored_partial.
Example C246_example :
  snd (run 4 (start 1) [New 0 x_ [2; 2] [1; 2; 3; 4]%Z (Some 0) no_settings; Copy (Base 0 x_); Write (Hand 0) 0 9%Z; Redist (Hand 0) 1;
                        Read (Hand 0) 0; GetAxis (Hand 0); Read (Base 0 x_) 0; GetAxis (Base 0 x_)])
  = [Done; Done; Done; Done; Val 9%Z; Axis (Some 1); Val 1%Z; Axis (Some 0)].
Proof. reflexivity. Qed.

(** The settings of a stored dataset change only through the storage. *)
Theorem C247_settings_kept : forall csize os st r n d, (forall o, In o os -> touches r n o = false) ->
  deref st (Base r n) = Ok d -> exists d', deref (fst (run csize st os)) (Base r n) = Ok d' /\ d_set d' = d_set d.
Proof. intros csize os st r n d T H. apply (run_settings csize os st r n (d_set d) T). exists d. auto. Qed.
Print Assumptions C247_settings_kept.
(** Set there, they are those of every later lookup. *)
Theorem C248_settings_of_lookups : forall csize st r n d k s os,
  deref st (Base r n) = Ok d -> put_setting (shape_of st d) (is_dist d) (d_set d) k = Ok s ->
  (forall o, In o os -> touches r n o = false) ->
  exists st' d', fst (run csize st (SetOn (Base r n) k :: os ++ [Lookup r n])) = st'
    /\ nth_error (hands st') (length (hands st') - 1) = Some d' /\ d_set d' = s.
Proof.
  intros csize st r n d k s os H P T.
  assert (RA : forall os1 os2 st0, fst (run csize st0 (os1 ++ os2)) = fst (run csize (fst (run csize st0 os1)) os2)).
  { induction os1 as [|o os1 IH]; intros os2 st0; auto. rewrite <- app_comm_cons, !run_cons. cbn [fst]. apply IH. }
  set (st1 := fst (step csize st (SetOn (Base r n) k))).
  assert (B1 : base_set st1 r n s).
  { unfold st1, step. cbn [exec]. unfold set_on. rewrite H. cbn [rbind]. rewrite P. cbn [rbind fst].
    cbn [deref] in H. destruct (nth_error (roots st) r) as [l|] eqn:E; [|discriminate]. unfold assign. rewrite E.
    exists (set_settings d s). cbn [deref roots]. rewrite lset_same by (apply (nth_some_lt _ _ _ _ E)). rewrite MemProofs2.dget_dput_same. auto. }
  pose proof (run_settings csize os st1 r n s T B1) as (d2 & H2 & K2).
  set (st2 := fst (run csize st1 os)) in *.
  eexists. exists (Ds (d_name d2) (Some r) (d_data d2) (d_attrs d2) (d_set d2)). split; [reflexivity|].
  rewrite run_cons. cbn [fst]. rewrite RA. fold st1. fold st2. rewrite run_cons. cbn [fst run]. unfold step. cbn [exec]. rewrite H2. cbn [rbind fst add_hand hands].
  rewrite app_length. cbn [length]. rewrite Nat.add_sub. split; [apply nth_app_end|]. cbn. exact K2.
Qed.
Print Assumptions C248_settings_of_lookups.
(** Set on a looked-up dataset they are lost with it. *)
Theorem C249_settings_on_lookup_refuted : exists st st' k d d', 
  exec 2 st (Lookup 0 x_) = Ok (st', Done) /\ hands st = [] /\ k = SComp (AStr (s_ "gzip"))
  /\ nth_error (hands (fst (run 2 st' [SetOn (Hand 0) k; Lookup 0 x_]))) 0 = Some d
  /\ nth_error (hands (fst (run 2 st' [SetOn (Hand 0) k; Lookup 0 x_]))) 1 = Some d'
  /\ s_comp (d_set d) = AStr (s_ "gzip") /\ s_comp (d_set d') = ANone.
Proof.
  exists (fst (run 2 (start 1) [New 0 x_ [2; 2] [1; 2; 3; 4]%Z (Some 0) no_settings])).
  do 4 eexists. repeat split; reflexivity.
Qed.
Print Assumptions C249_settings_on_lookup_refuted.
Example C249_example :
  map (fun d => s_chunks (d_set d))
    (hands (fst (run 4 (start 1) [New 0 x_ [2; 5] [] (Some 0) no_settings; Lookup 0 x_; SetOn (Hand 0) (SChunks (Some [4; 4])); Lookup 0 x_;
                                  SetOn (Base 0 x_) (SChunks (Some [1; 9])); Redist (Hand 0) 1; Lookup 0 x_])))
  = [Some [2; 4]; None; Some [1; 5]].
Proof. reflexivity. Qed.

(** The setter of [chunks], of both classes. *)
Theorem C250_chunks_setter : forall v shape,
  (length v = length shape -> exists c, chunks_common (Some v) shape = Ok (Some c) /\ chunks_distributed (Some v) shape = Ok (Some c)
                                      /\ ChunksOf v shape c)
  /\ (length v <> length shape -> chunks_common (Some v) shape = Err ValueError /\ chunks_distributed (Some v) shape = Err ValueError)
  /\ chunks_common None shape = Ok None /\ chunks_distributed None shape = Ok None.
Proof.
  intros v shape. split; [|split].
  - intros L. destruct (chunks_dist_spec v shape L) as (c & E & H). exists c. rewrite chunks_agree. auto.
  - intros N. apply Nat.eqb_neq in N. cbn. rewrite N. auto.
  - auto.
Qed.
Print Assumptions C250_chunks_setter.
Example C250_example : chunks_common (Some [4; 4; 1]) [2; 9; 3] = Ok (Some [2; 4; 1]) /\ chunks_distributed (Some [4; 4]) [2; 9; 3] = Err ValueError.
Proof. split; reflexivity. Qed.

(** [_ensure_chunked] sets what is not set yet, and nothing else. *)
Theorem C251_ensure_chunked : forall spec its, NoDup (map fst spec) ->
  (forall n p it, In (n, p) spec -> dget n its = Some it -> ~ TooShort p it) ->
  exists its', ensure_chunked spec its = Ok its' /\ forall n,
    match dget n its with
    | None => dget n its' = None
    | Some it => exists it', dget n its' = Some it' /\ match dget n spec with Some p => Ensured p it it' | None => it' = it end
    end.
Proof. exact ensure_chunked_ok. Qed.
Print Assumptions C251_ensure_chunked.
(** Chunk sizes for too few dimensions are an IndexError. *)
Theorem C251_short : forall spec its, NoDup (map fst spec) ->
  (exists n p it, In (n, p) spec /\ dget n its = Some it /\ TooShort p it) -> ensure_chunked spec its = Err IndexError.
Proof. exact ensure_chunked_short. Qed.
Print Assumptions C251_short.
Example C251_example :
  let spec := [(x_, Dspec (Some [8; 8; 8]) (Some (AStr (s_ "bitshuffle"))) None); (y_, Dspec (Some [2]) None (Some (OScalar (AInt 4%Z))))] in
  ensure_chunked spec [(x_, Item [3; 20] true no_settings); (y_, Item [5; 5] false (Sets (Some [1; 1]) ANone ONone))]
  = Ok [(x_, Item [3; 20] true (Sets (Some [3; 8]) (AStr (s_ "bitshuffle")) ONone));
        (y_, Item [5; 5] false (Sets (Some [1; 1]) ANone (OScalar (AInt 4%Z))))]
  /\ ensure_chunked spec [(y_, Item [5; 5] false no_settings)] = Err IndexError.
Proof. split; reflexivity. Qed.

(** The option [compression] of a task: off. *)
Theorem C252_compression_off : forall its, (forall n, In n (map fst its) -> in_group n = false) -> NoDup (map fst its) ->
  exists its', save_settings COff its = Ok its' /\ forall n, dget n its' =
    match dget n its with None => None | Some it => Some (Item (i_shape it) (i_dist it) no_settings) end.
Proof.
  intros its G N. destruct (disable_ok (map fst its) its) as (its' & E & A).
  - intros n I. split; auto. apply in_map_iff in I. destruct I as ([n' it] & En & I). cbn in En. subst n'.
    exists it. apply dget_in_nodup; auto.
  - exists its'. split; auto. intros n. rewrite A. destruct (dget n its) as [it|] eqn:Gn; auto.
    assert (X : existsb (seqb n) (map fst its) = true).
    { apply existsb_exists. exists n. split; [|apply seqb_refl]. apply in_map_iff. exists (n, it). split; auto. apply dget_some_in. exact Gn. }
    rewrite X. reflexivity.
Qed.
Print Assumptions C252_compression_off.
Example C252_example :
  save_settings COff [(x_, Item [3] true (Sets (Some [2]) (AInt H5FILTER) (OSeq []))); (y_, Item [5] false no_settings)]
  = Ok [(x_, Item [3] true no_settings); (y_, Item [5] false no_settings)].
Proof. reflexivity. Qed.

(** A dataset in a sub-group makes it a ValueError. *)
Theorem C253_compression_off_groups : forall its, NoDup (map fst its) -> (exists n, In n (map fst its) /\ in_group n = true) ->
  save_settings COff its = Err ValueError.
Proof.
  intros its N G. apply disable_group; auto. intros n I. apply in_map_iff in I. destruct I as ([n' it] & En & I). cbn in En. subst n'.
  exists it. apply dget_in_nodup; auto.
Qed.
Print Assumptions C253_compression_off_groups.
Theorem C253_compression_off_any_refuted : exists its, NoDup (map fst its) /\ save_settings COff its = Err ValueError.
Proof. exists [(s_ "g/x", Item [3] false no_settings)]. split; [repeat constructor; intros []|reflexivity]. Qed.
Print Assumptions C253_compression_off_any_refuted.
Example C253_example : save_settings COff [(x_, Item [1] false no_settings); (s_ "g/x", Item [3] false no_settings)] = Err ValueError.
Proof. reflexivity. Qed.

(** Given as a dictionary. *)
Theorem C254_compression_given : forall conf its, NoDup (map fst conf) -> (forall n ks, In (n, ks) conf -> in_group n = false) ->
  (forall n ks it k, In (n, ks) conf -> dget n its = Some it -> In k ks -> fitting (i_shape it) k) ->
  exists its', save_settings (CDict conf) its = Ok its' /\ forall n,
    match dget n its with
    | None => dget n its' = None
    | Some it => exists it', dget n its' = Some it' /\ match dget n conf with Some ks => Overridden ks it it' | None => it' = it end
    end.
Proof. exact override_ok. Qed.
Print Assumptions C254_compression_given.
Theorem C254_compression_on : forall its, save_settings COn its = Ok its.
Proof. reflexivity. Qed.
Print Assumptions C254_compression_on.
Example C254_example :
  save_settings (CDict [(x_, [SComp (AStr (s_ "bitshuffle")); SChunks (Some [2; 9])]); (s_ "none", [SChunks (Some [1])])])
                [(x_, Item [4; 4] true no_settings); (y_, Item [5] false no_settings)]
  = Ok [(x_, Item [4; 4] true (Sets (Some [2; 4]) (AStr (s_ "bitshuffle")) (OSeq [AInt 0%Z; AInt 2%Z]))); (y_, Item [5] false no_settings)].
Proof. reflexivity. Qed.

(** The short name is meant to be replaced by the number of the filter (line 477),
    but is not. *)
Theorem C255_short_name_replaced_refuted : exists conf its its' it',
  save_settings (CDict conf) its = Ok its' /\ dget x_ its' = Some it'
  /\ dget x_ conf = Some [SComp (AStr (s_ "bitshuffle"))] /\ s_comp (i_set it') <> AInt H5FILTER.
Proof.
  exists [(x_, [SComp (AStr (s_ "bitshuffle"))])], [(x_, Item [4] false no_settings)]. do 2 eexists.
  repeat split; try reflexivity. discriminate.
Qed.
Print Assumptions C255_short_name_replaced_refuted.
(** For an HDF5 file it makes no difference. *)
Theorem C256_same_in_hdf5 : forall o, hdf5_kwargs true (AStr (s_ "bitshuffle")) o false = hdf5_kwargs true (AInt H5FILTER) o false.
Proof. intros o. reflexivity. Qed.
Print Assumptions C256_same_in_hdf5.
Theorem C256_same_in_zarr : forall K o (c : option K), zarr_kwargs true (AStr (s_ "bitshuffle")) o c = zarr_kwargs true (AInt H5FILTER) o c.
Proof. intros K o c. destruct c; reflexivity. Qed.
Print Assumptions C256_same_in_zarr.
Example C256_example :
  hdf5_kwargs true (AStr (s_ "bitshuffle")) (OSeq [AInt 0%Z; AInt 2%Z]) false = Ok (Some (AInt 32008%Z, OSeq [AInt 0%Z; AInt 2%Z])).
Proof. reflexivity. Qed.

(** Equality of datasets. *)
Theorem C257_equality : forall st x y, attrs_ok st -> dset_eqb st x y = true <-> SameDset st x y.
Proof. exact dset_eqb_iff. Qed.
Print Assumptions C257_equality.
(** A copy is equal to its original, and no dataset of another root is. *)
Theorem C258_copy_equal : forall st d st' d', attrs_ok st -> deep_copy st d = Ok (st', d') -> dset_eqb st' d d' = true.
Proof.
  intros st d st' d' A E. unfold deep_copy in E. destruct (nth_error (bufs st) (a_buf (d_data d))) as [b|] eqn:Eb; [|discriminate].
  destruct (nth_error (atts st) (d_attrs d)) as [a|] eqn:Ea; [|discriminate]. injection E; intros <- <-.
  apply dset_eqb_iff.
  - intros i a0 H. cbn in H. apply nth_app_inv in H. destruct H as [H|(_ & ->)]; eapply A; eauto.
  - unfold SameDset, is_dist. cbn. repeat split; auto.
    + exists a, a. repeat split; auto using nth_app_old, nth_app_end.
    + exists b. auto using nth_app_old, nth_app_end.
Qed.
Print Assumptions C258_copy_equal.
Theorem C258_other_root : forall st x y, d_root x <> d_root y -> dset_eqb st x y = false.
Proof.
  intros st x y N. destruct (dset_eqb st x y) eqn:E; auto. exfalso. unfold dset_eqb in E. rewrite !andb_true_iff in E.
  destruct E as (((((_ & E) & _) & _) & _) & _). apply N. destruct (d_root x), (d_root y); cbn in E; try discriminate; auto.
  apply Nat.eqb_eq in E. congruence.
Qed.
Print Assumptions C258_other_root.
Definition st5 : state :=
  fst (run 2 (start 2) [New 0 x_ [2] [1; 2]%Z None no_settings; New 1 x_ [2] [1; 2]%Z None no_settings; Lookup 0 x_; Lookup 0 x_; Lookup 1 x_;
                        Copy (Hand 0); Copy (Hand 0); Write (Hand 4) 0 5%Z; SetAttr (Hand 0) y_ 1%Z]).
Example C257_example :
  map (fun i => dset_eqb st5 (nth 0 (hands st5) (Ds x_ None (Arr 0 None) 0 no_settings)) (nth i (hands st5) (Ds x_ None (Arr 0 None) 0 no_settings)))
      [0; 1; 2; 3; 4]
  = [true; true; false; false; false].
Proof. reflexivity. Qed.

(** [len]. *)
Theorem C259_len : forall size rank l shape axis, axis <> Some 0 -> dset_len size rank (l :: shape) axis = Ok l.
Proof. intros size rank l shape [[|a]|] N; try reflexivity. contradiction. Qed.
Print Assumptions C259_len.
Theorem C259_len_one_process : forall l shape axis, dset_len 1 0 (l :: shape) axis = Ok l.
Proof.
  intros l shape [[|a]|]; try reflexivity. cbn [dset_len]. unfold split_local, split_all, split_m. cbn [Nat.eqb].
  rewrite Nat.div_1_r, Nat.mod_1_r. cbn. rewrite Nat.mul_1_r, Nat.add_0_r. reflexivity.
Qed.
Print Assumptions C259_len_one_process.
Theorem C260_len_is_length_refuted : exists size rank l shape n,
  rank < size /\ dset_len size rank (l :: shape) (Some 0) = Ok n /\ n <> l.
Proof. exists 2, 1, 5, [3], 2. repeat split; [lia|]. lia. Qed.
Print Assumptions C260_len_is_length_refuted.
Example C259_example : dset_len 2 0 [5; 3] (Some 0) = Ok 3 /\ dset_len 2 0 [5; 3] (Some 1) = Ok 5 /\ dset_len 2 1 [] (Some 0) = Err TypeError.
Proof. repeat split. Qed.
