(** Profiling and checks of the environment, C154-C164. *)
From Coq Require Import String.
From Coq Require Import List Ascii Bool Arith ZArith QArith Qabs Qpower Lia Permutation.
From Verif Require Import PyBase PyStr MemModel MemProofs2 AttrModel GlobModel FlowProofs ProfModel ProfSpec ProfProofs.
Import ListNotations.
Open Scope list_scope.
Open Scope nat_scope.

(** C154 *)
(** One file per rank, which sort like the ranks. *)
Theorem C154_names : forall k r1 r2 size, r1 < r2 < size ->
  profile_name k r1 size <> profile_name k r2 size /\ sleb (profile_name k r1 size) (profile_name k r2 size) = true /\
  length (profile_name k r1 size) = length (profile_name k r2 size).
Proof.
  intros k r1 r2 size H. unfold profile_name. set (w := rank_length size). set (e := match k with CProfile => s_ ".prof" | _ => s_ ".txt" end).
  assert (W: size < 10 ^ w) by (apply ilog10_ok; lia). assert (0 < w) by (unfold w, rank_length; lia).
  assert (L1: length (padded w r1) = w) by (apply padded_len; lia). assert (L2: length (padded w r2) = w) by (apply padded_len; lia).
  destruct (num_order (padded w r1) (padded w r2)) as [S1 N1]; try apply padded_Digit; [congruence|rewrite !padded_val; lia|].
  repeat split.
  - intros E. apply app_inv_head in E. apply app_inv_tail in E. contradiction.
  - rewrite sleb_prefix. apply sleb_suffix; auto. congruence.
  - rewrite !app_length. lia.
Qed.
Print Assumptions C154_names.
(** The number is written with as many digits as that of ranks has. *)
Theorem C154_width : forall k r size, r < size -> exists w zeros,
  10 ^ w <= size < 10 ^ S w /\
  profile_name k r size = s_ "profile_" ++ repeat (ch "0") zeros ++ decimal r ++ (match k with CProfile => s_ ".prof" | _ => s_ ".txt" end) /\
  zeros + length (decimal r) = S w.
Proof.
  intros k r size H. exists (ilog10 size size), (rank_length size - length (decimal r)). repeat split.
  - apply ilog10_least; lia.
  - replace (S (ilog10 size size)) with (ilog10 size size + 1) by lia. apply ilog10_ok. lia.
  - unfold profile_name, padded. now rewrite <- app_assoc.
  - pose proof (ilog10_ok size size (le_n _)) as W.
    pose proof (digits_len (S r) r [] (ilog10 size size) ltac:(lia) ltac:(replace (S (ilog10 size size)) with (ilog10 size size + 1) by lia; lia)) as D. fold (decimal r) in D. cbn [length] in D.
    unfold rank_length. lia.
Qed.
Print Assumptions C154_width.
Example C154_example : profile_name CProfile 7 100 = s_ "profile_007.prof" /\ profile_name PyInstrument 0 1 = s_ "profile_0.txt".
Proof. split; reflexivity. Qed.

(** C155 *)
Theorem C155_default_partial : forall k rank size cwd,
  profiler_files true k rank size cwd None = match k with OtherProfiler => Err ValueError | _ => Ok [cwd ++ s_ "/" ++ profile_name k rank size] end /\
  (k <> OtherProfiler -> profiler_files false k rank size cwd None = Ok []).
Proof. intros [ | | ] rank size cwd; split; try reflexivity; now intros H. Qed.
Print Assumptions C155_default_partial.
Theorem C155_path_refuted : exists k rank size cwd path, path <> cwd /\
  profiler_files true k rank size cwd (Some path) = Ok [cwd ++ s_ "/" ++ profile_name k rank size] /\
  cwd ++ s_ "/" ++ profile_name k rank size <> path ++ s_ "/" ++ profile_name k rank size.
Proof. exists CProfile, 0, 1, (s_ "/home"), (s_ "/data"). repeat split; vm_compute; discriminate. Qed.
Print Assumptions C155_path_refuted.
(** A given path is never accepted. *)
Theorem C155_psutil_refuted : exists path, forall use label file, psp_new use label (Some path) file = Err AttributeError.
Proof. exists (s_ "/data"). reflexivity. Qed.
Print Assumptions C155_psutil_refuted.
Example C155_example : profiler_files true PyInstrument 3 16 (s_ "/home") None = Ok [s_ "/home/profile_03.txt"].
Proof. reflexivity. Qed.

(** C156 *)
Open Scope Q_scope.
Lemma human_spec : forall units k num, let r := bytes2human units k num in
  (k <= snd r <= k + units)%nat /\
  fst r * (1024 ^ Z.of_nat (snd r)) == num * (1024 ^ Z.of_nat k) /\
  ((snd r < k + units)%nat -> Qabs (fst r) < 1024) /\ ((k < snd r)%nat -> 1 <= Qabs (fst r)).
Proof.
  induction units as [|units IH]; intros k num; cbn [bytes2human].
  - cbn. repeat split; try lia; try reflexivity; intros; lia.
  - destruct (Qle_bool 1024 (Qabs num)) eqn:E; cbn [negb].
    + apply Qle_bool_iff in E. destruct (IH (S k) (num / 1024)) as (A & B & C & D). cbn zeta in *. repeat split; try lia.
      * rewrite B. rewrite Nat2Z.inj_succ. unfold Z.succ. rewrite Qpower_plus by discriminate. change (1024 ^ 1) with 1024. field.
      * intros H. apply C. lia.
      * intros H. destruct (Nat.eq_dec (snd (bytes2human units (S k) (num / 1024))) (S k)) as [Q|Q]; [|apply D; lia].
        assert (Z: fst (bytes2human units (S k) (num / 1024)) == num / 1024).
        { rewrite Q in B. apply (Qmult_inj_r _ _ (1024 ^ Z.of_nat (S k))); [apply Qpower_not_0; discriminate|exact B]. }
        rewrite Z. unfold Qdiv. rewrite Qabs_Qmult. change (Qabs (/ 1024)) with (1 # 1024).
        setoid_replace 1 with (1024 * (1 # 1024)) by reflexivity. apply Qmult_le_compat_r; [assumption|discriminate].
    + assert (L: Qabs num < 1024). { apply Qnot_le_lt. intros K. apply Qle_bool_iff in K. congruence. }
      cbn. repeat split; try lia; try reflexivity; auto; intros; lia.
Qed.
Theorem C156_value : forall num, let (m, k) := human num in (k <= 8)%nat /\
  m * (1024 ^ Z.of_nat k) == inject_Z num /\ ((k < 8)%nat -> Qabs m < 1024) /\ ((0 < k)%nat -> 1 <= Qabs m).
Proof.
  intros num. pose proof (human_spec 8 0 (inject_Z num)) as H. unfold human. destruct (bytes2human 8 0 (inject_Z num)) as [m k].
  cbn [fst snd] in H. destruct H as (A & B & C & D). repeat split; auto; try lia.
  rewrite B. change (1024 ^ Z.of_nat 0) with 1. ring.
Qed.
Print Assumptions C156_value.
(** One decimal place: the nearest. *)
Theorem C156_shown : forall q, Qabs (q - (tenths q # 10)) <= 1 # 20.
Proof.
  intros q. assert (R: forall x, Qabs (x - inject_Z (round_half_even x)) <= 1 # 2).
  { intros [n d]. unfold round_half_even. cbn [Qnum Qden].
    pose proof (Z.mul_div_le n (Zpos d) ltac:(lia)) as A. pose proof (Z.mul_succ_div_gt n (Zpos d) ltac:(lia)) as B.
    set (f := (n / Zpos d)%Z) in *.
    assert (G: forall z, (2 * Z.abs (n - z * Zpos d) <= Zpos d)%Z -> Qabs ((n # d) - inject_Z z) <= 1 # 2).
    { intros z H. unfold Qle, Qabs, Qminus, Qplus, Qopp, inject_Z. cbn [Qnum Qden]. rewrite Pos.mul_1_r.
      replace (n * 1 + - z * Z.pos d)%Z with (n - z * Zpos d)%Z by lia. lia. }
    apply G. destruct (Z.ltb_spec (2 * (n - f * Zpos d)) (Zpos d)); [lia|].
    destruct (Z.ltb_spec (Zpos d) (2 * (n - f * Zpos d))); [lia|]. destruct (Z.even f); lia. }
  unfold tenths. specialize (R (10 * q)).
  setoid_replace (q - (round_half_even (10 * q) # 10)) with ((1 # 10) * (10 * q - inject_Z (round_half_even (10 * q)))).
  - rewrite Qabs_Qmult. change (Qabs (1 # 10)) with (1 # 10). setoid_replace (1 # 20) with ((1 # 10) * (1 # 2)) by reflexivity.
    apply Qmult_le_l; [reflexivity|assumption].
  - rewrite Qmake_Qdiv. field.
Qed.
Print Assumptions C156_shown.
Example C156_example : (let (m, k) := human 1536 in tenths m = 15%Z /\ k = 1%nat) /\ (let (m, k) := human (-5) in tenths m = (-50)%Z /\ k = 0%nat).
Proof. vm_compute. repeat split. Qed.

(** C157 *)
(** It is "1024.0KiB". *)
Theorem C157_below_refuted : exists num, let (m, k) := human num in (k < 8)%nat /\ tenths m = 10240%Z.
Proof. exists 1048575%Z. vm_compute. split; [|reflexivity]. repeat constructor. Qed.
Print Assumptions C157_below_refuted.
Theorem C157_below_partial : forall num, let (m, k) := human num in (k < 8)%nat -> (Z.abs (tenths m) <= 10240)%Z.
Proof.
  intros num. pose proof (C156_value num) as H. destruct (human num) as [m k]. destruct H as (_ & _ & H & _). intros K. specialize (H K).
  pose proof (C156_shown m) as S_.
  assert (X: Qabs (tenths m # 10) < (20481 # 20)).
  { setoid_replace (tenths m # 10) with (m - (m - (tenths m # 10))) by ring.
    eapply Qle_lt_trans; [apply Qabs_triangle|]. rewrite Qabs_opp. setoid_replace (20481 # 20) with (1024 + (1 # 20)) by reflexivity.
    apply Qplus_lt_le_compat; assumption. }
  unfold Qlt, Qabs in X. cbn [Qnum Qden] in X. lia.
Qed.
Print Assumptions C157_below_partial.
Example C157_example : let (m, k) := human 1048524 in k = 1%nat /\ tenths m = 10239%Z.
Proof. vm_compute. split; reflexivity. Qed.
Open Scope nat_scope.

(** C158 *)
Lemma cell_need pre k (c0 c : counters) (Cell : str -> cell -> Prop) : map fst c0 = map fst c -> In (s_ k) (map fst c) ->
  (forall v0 v, dget (s_ k) c0 = Some v0 -> dget (s_ k) c = Some v -> Cell pre (CNum (v - v0))) ->
  exists x, need k (subtract c c0) = Ok x /\ Cell pre x.
Proof.
  intros E I H. unfold need. rewrite subtract_get by congruence. destruct (dget_some _ _ I) as [v V]. rewrite <- E in I. destruct (dget_some _ _ I) as [v0 V0].
  rewrite V, V0. eauto.
Qed.
Lemma cell_maybe pre k (c0 c : counters) (Cell : str -> cell -> Prop) : map fst c0 = map fst c ->
  (forall v0 v, dget (s_ k) c0 = Some v0 -> dget (s_ k) c = Some v -> Cell pre (CNum (v - v0))) ->
  (dget (s_ k) c = None -> Cell pre (CText (s_ "-"))) -> Cell pre (maybe k (subtract c c0)).
Proof.
  intros E H N. unfold maybe. rewrite subtract_get by congruence. destruct (dget (s_ k) c) as [v|] eqn:V; auto.
  destruct (dget (s_ k) c0) as [v0|] eqn:V0; auto.
  eapply dget_none_same in V0; [|exact E]. congruence.
Qed.
Theorem C158_row : forall p m0 m, Readings m0 m -> exists row, psp_row p m0 m = Ok row /\
  Forall2 (Cell (p_label p) m0 m (p_peak p)) colnames row.
Proof.
  intros p m0 m (Ec & Ei & Hc & Hi). unfold psp_row.
  set (P := Cell (p_label p) m0 m (p_peak p)).
  assert (Nc: forall k, In k ["user"; "system"; "children_user"; "children_system"]%string -> exists x, need k (subtract (m_cpu m) (m_cpu m0)) = Ok x /\ P (s_ "cpu_times_" ++ s_ k) x).
  { intros k K. apply cell_need; auto. intros. now apply Cell_cpu. }
  assert (Ni: forall k, In k ["read_count"; "write_count"; "read_bytes"; "write_bytes"]%string -> exists x, need k (subtract (m_io m) (m_io m0)) = Ok x /\ P (s_ "disk_io_" ++ s_ k) x).
  { intros k K. apply cell_need; auto. intros. now apply Cell_io. }
  assert (Mc: forall k, P (s_ "cpu_times_" ++ s_ k) (maybe k (subtract (m_cpu m) (m_cpu m0)))).
  { intros k. apply cell_maybe; auto; intros; [now apply Cell_cpu|now apply Cell_no_cpu]. }
  assert (Mi: forall k, P (s_ "disk_io_" ++ s_ k) (maybe k (subtract (m_io m) (m_io m0)))).
  { intros k. apply cell_maybe; auto; intros; [now apply Cell_io|now apply Cell_no_io]. }
  destruct (Nc "user"%string) as (c1 & -> & C1); [cbn; auto|]. destruct (Nc "system"%string) as (c2 & -> & C2); [cbn; auto|].
  destruct (Nc "children_user"%string) as (c3 & -> & C3); [cbn; auto|]. destruct (Nc "children_system"%string) as (c4 & -> & C4); [cbn; auto|].
  destruct (Ni "read_count"%string) as (d1 & -> & D1); [cbn; auto|]. destruct (Ni "write_count"%string) as (d2 & -> & D2); [cbn; auto|].
  destruct (Ni "read_bytes"%string) as (d3 & -> & D3); [cbn; auto|]. destruct (Ni "write_bytes"%string) as (d4 & -> & D4); [cbn; auto|].
  cbn [rbind]. eexists. split; [reflexivity|]. unfold colnames. cbn [map].
  repeat match goal with |- Forall2 _ (_ :: _) _ => constructor | |- Forall2 _ [] [] => constructor end; try assumption;
    try (exact (Mc "iowait"%string)); try (exact (Mi "read_chars"%string)); try (exact (Mi "write_chars"%string)).
  - apply Cell_name.
  - apply Cell_time.
  - apply Cell_load.
  - apply Cell_uss.
  - apply Cell_avail.
  - apply Cell_used.
  - apply Cell_peak.
Qed.
Print Assumptions C158_row.
(** Without one of the eight counters that every row has: KeyError. *)
Theorem C158_missing : forall p m0 m, map fst (m_cpu m0) = map fst (m_cpu m) -> map fst (m_io m0) = map fst (m_io m) ->
  (exists k, In k ["user"; "system"; "children_user"; "children_system"]%string /\ ~ In (s_ k) (map fst (m_cpu m)))
  \/ (exists k, In k ["read_count"; "write_count"; "read_bytes"; "write_bytes"]%string /\ ~ In (s_ k) (map fst (m_io m))) ->
  psp_row p m0 m = Err KeyError.
Proof.
  intros p m0 m Ec Ei H.
  assert (N: forall k c, (exists v, need k c = Ok v) \/ need k c = Err KeyError).
  { intros k c. unfold need. destruct (dget (s_ k) c); eauto. }
  assert (D: forall k (c0 c : counters), map fst c0 = map fst c -> ~ In (s_ k) (map fst c) -> need k (subtract c c0) = Err KeyError).
  { intros k c0 c E I. unfold need. rewrite subtract_get by congruence.
    destruct (dget (s_ k) c) as [v|] eqn:V; auto. exfalso. apply I.
    clear - V. induction c as [|[a b] c IH]; cbn in *; [discriminate|]. destruct (seqb (s_ k) a) eqn:Q; [left; symmetry; now apply seqb_eq|right; auto]. }
  unfold psp_row.
  destruct H as [(k & I & M)|(k & I & M)]; [apply (D _ _ _ Ec) in M|apply (D _ _ _ Ei) in M]; cbn in I;
    repeat match type of I with _ \/ _ => destruct I as [<-|I] end; try contradiction;
    repeat match goal with |- context [rbind (need ?a ?b) _] =>
      first [rewrite M; cbn [rbind]; reflexivity | destruct (N a b) as [[? ->]| ->]; cbn [rbind]; [|reflexivity]] end.
Qed.
Print Assumptions C158_missing.
(** The table of several blocks: the names of the columns, unless the file was there, and one row
    for each block in order. *)
Theorem C158_table : forall label file bs, Forall (fun b => Readings (fst (fst b)) (snd b)) bs ->
  exists p rows, psp_new true label None file = Ok (p, Some (match file with Some t => t | None => [map CText colnames] end)) /\
    psp_blocks p bs (Some (match file with Some t => t | None => [map CText colnames] end))
    = Ok (Some (match file with Some t => t | None => [map CText colnames] end ++ rows)) /\
    Forall2 (fun b row => exists peak, Greatest peak (m_uss (fst (fst b)) :: snd (fst b)) /\ Forall2 (Cell label (fst (fst b)) (snd b) peak) colnames row) bs rows.
Proof.
  intros label file bs H. set (t0 := match file with Some t => t | None => [map CText colnames] end).
  assert (G: forall bs, Forall (fun b => Readings (fst (fst b)) (snd b)) bs -> forall p t, p_use p = true -> p_label p = label ->
    exists rows, psp_blocks p bs (Some t) = Ok (Some (t ++ rows)) /\
    Forall2 (fun b row => exists peak, Greatest peak (m_uss (fst (fst b)) :: snd (fst b)) /\ Forall2 (Cell label (fst (fst b)) (snd b) peak) colnames row) bs rows).
  { clear. induction 1 as [|[[m0 ss] m] bs R H IH]; intros p t U L.
    - exists []. rewrite app_nil_r. split; [reflexivity|constructor].
    - cbn [psp_blocks]. unfold psp_block. rewrite U. cbv zeta. set (q := psp_monitor (psp_start p m0) ss).
      cbn [fst snd] in R. destruct (C158_row q m0 m R) as (row & E & F). assert (Es: psp_stop q m (Some t) = Ok (Some (t ++ [row]))) by (unfold psp_stop; change (p_start q) with (Some m0); cbv iota; now rewrite E).
      rewrite Es. cbn [rbind].
      destruct (IH q (t ++ [row]) U L) as (rows & E' & F'). exists (row :: rows). split.
      + etransitivity; [exact E'|]. do 2 f_equal. exact (eq_sym (app_assoc t [row] rows)).
      + constructor; auto. cbn [fst snd]. exists (p_peak q). split.
        * unfold q. cbn [psp_monitor p_peak psp_start]. clear. unfold Greatest.
          assert (M: forall l u, (u = fold_left Z.max l u \/ In (fold_left Z.max l u) l) /\ (u <= fold_left Z.max l u)%Z /\ forall y, In y l -> (y <= fold_left Z.max l u)%Z).
          { induction l as [|s l IH]; intros u; cbn [fold_left]; [split; [now left|split; [lia|intros y []]]|].
            destruct (IH (Z.max u s)) as (A & B & C). repeat split.
            - destruct A as [A|A]; [|right; now right]. destruct (Z.max_spec u s) as [[_ K]|[_ K]]; rewrite K in *; [right; now left|now left].
            - lia.
            - intros y [<-|Y]; [lia|auto]. }
          destruct (M ss (m_uss m0)) as (A & B & C). split; [destruct A as [A|A]; [left; exact A|now right]|]. intros y [<-|Y]; auto.
        * rewrite <- L. exact F. }
  destruct (G bs H (mkpsp true label None 0) t0 eq_refl eq_refl) as (rows & E & F). exists (mkpsp true label None 0), rows. split; [|split; assumption].
  unfold psp_new, t0. now destruct file.
Qed.
Print Assumptions C158_table.
Theorem C158_off : forall label file p f bs, psp_new false label None file = Ok (p, f) -> f = file /\ psp_blocks p bs f = Ok f.
Proof.
  intros label file p f bs H. unfold psp_new in H. inversion H; subst. split; [now destruct file|].
  generalize (match file with Some t => Some t | None => None end) as g. intros g. induction bs as [|[[m0 ss] m] bs IH]; [reflexivity|]. cbn. exact IH.
Qed.
Print Assumptions C158_off.
Theorem C158_order : forall use label file p f m, psp_new use label None file = Ok (p, f) -> psp_stop p m f = Err RuntimeError.
Proof. intros use label file p f m H. inversion H; subst. reflexivity. Qed.
Print Assumptions C158_order.
Definition ex_cpu (a b : Z) : counters := [(s_ "user", a); (s_ "system", b); (s_ "children_user", 0%Z); (s_ "children_system", 0%Z)].
Definition ex_io (a : Z) : counters := [(s_ "read_count", a); (s_ "write_count", 0%Z); (s_ "read_bytes", a); (s_ "write_bytes", 0%Z)].
Definition ex_m0 := mkmeasure 10 (ex_cpu 1 1) (ex_io 3) 100 0 500 500.
Definition ex_m := mkmeasure 12 (ex_cpu 3 2) (ex_io 9) 150 80 700 300.
Example C158_example : match psp_new true (s_ "t") None None with
  | Ok (p, f) => psp_blocks p [(ex_m0, [600%Z; 650%Z], ex_m)] f = Ok (Some [map CText colnames;
      [CText (s_ "t"); CNum 2; CNum 2; CNum 1; CNum 0; CNum 0; CText (s_ "-"); CNum 80; CNum 6; CNum 0; CNum 6; CNum 0; CText (s_ "-"); CText (s_ "-");
       CNum 50; CNum 300; CNum 700; CNum 650]])
  | Err _ => False
  end.
Proof. vm_compute. reflexivity. Qed.

(** C159 *)
(** Rows without names of columns. *)
Theorem C159_header_refuted : exists label m0 m p f row, psp_new false label None None = Ok (p, f) /\
  psp_stop (psp_start p m0) m f = Ok (Some [row]) /\ row <> map CText colnames.
Proof.
  exists (s_ "t"), ex_m0, ex_m. do 3 eexists. split; [reflexivity|]. split; [vm_compute; reflexivity|]. vm_compute. discriminate.
Qed.
Print Assumptions C159_header_refuted.
(** The peak can be less than the memory used at the end. *)
Theorem C159_peak_refuted : exists m0 samples m row, let p := psp_monitor (psp_start (mkpsp true (s_ "t") None 0) m0) samples in
  Readings m0 m /\ psp_row p m0 m = Ok row /\ (p_peak p < m_used m)%Z.
Proof.
  exists ex_m0, [600%Z], ex_m. eexists. cbv zeta. split; [|split; [vm_compute; reflexivity|vm_compute; reflexivity]].
  split; [reflexivity|]. split; [reflexivity|]. split; intros k K; repeat (destruct K as [<-|K]; [vm_compute; intuition|]); destruct K.
Qed.
Print Assumptions C159_peak_refuted.
Example C159_example : psp_stop (psp_start (mkpsp true (s_ "t") None 0) ex_m0) (mkmeasure 12 [] [] 0 0 0 0) None = Err KeyError.
Proof. reflexivity. Qed.

(** C160 *)
Theorem C160_usage : forall u s f, NoDup (map fst f) -> (forall k, In k (map fst f) -> In k (map fst s)) ->
  exists u', io_exit (io_enter u s) f = Ok u' /\
    forall k v v0, dget k f = Some v -> dget k s = Some v0 -> dget k (io_usage_ u') = Some (v - v0)%Z.
Proof.
  intros u s f N I.
  assert (G: forall f us, NoDup (map fst f) -> (forall k, In k (map fst f) -> In k (map fst s)) ->
    exists us', io_differences f s us = Ok us' /\
    (forall k, ~ In k (map fst f) -> dget k us' = dget k us) /\
    forall k v v0, dget k f = Some v -> dget k s = Some v0 -> dget k us' = Some (v - v0)%Z).
  { clear. induction f as [|[n v] f IH]; intros us N I.
    - exists us. repeat split; auto. discriminate.
    - cbn [map fst] in *. inversion N as [|? ? Nn Nf]; subst. cbn [io_differences].
      destruct (dget_some n s) as [v0 V0]; [apply I; now left|]. rewrite V0.
      destruct (IH (dput n (v - v0)%Z us)) as (us' & E & O & D); auto; [intros; apply I; now right|].
      exists us'. split; [exact E|]. split.
      + intros k K. rewrite O by (intros X; apply K; now right). apply dget_dput_other. intros ->. apply K. now left.
      + intros k w w0 W W0. cbn [dget] in W. destruct (seqb k n) eqn:Q.
        * apply seqb_eq in Q. subst k. inversion W; subst. rewrite O by assumption. rewrite W0 in V0. inversion V0; subst. apply dget_dput_same.
        * eapply D; eauto. }
  destruct f as [|x f].
  - exists (io_enter u s). split; [reflexivity|]. discriminate.
  - destruct (G (x :: f) (io_usage_ u) N I) as (us' & E & _ & D). unfold io_exit, io_enter. cbn [io_start io_usage_]. rewrite E. cbn [rbind].
    eexists. split; [reflexivity|]. exact D.
Qed.
Print Assumptions C160_usage.
Theorem C160_not_entered : forall c f, io_exit io_new (c :: f) = Err TypeError.
Proof. reflexivity. Qed.
Print Assumptions C160_not_entered.
Example C160_example : match io_exit (io_enter io_new (ex_io 3)) (ex_io 9) with Ok u => io_usage_ u = ex_io 6 | Err _ => False end.
Proof. reflexivity. Qed.

(** C161 *)
(** Every rank sends to and receives from each rank once, and to rank [d] when [d] receives from it. *)
Theorem C161_exchange : forall size s d, s < size -> d < size ->
  Permutation (sends size s) (seq 0 size) /\ Permutation (recvs size d) (seq 0 size) /\
  forall i, i < size -> (nth i (sends size s) 0 = d <-> nth i (recvs size d) 0 = s).
Proof. intros size s d S_ D. split; [now apply sends_perm|]. split; [now apply recvs_perm|]. intros. now apply sends_recvs. Qed.
Print Assumptions C161_exchange.
Theorem C161_verdict : forall size rank timeout at_ same, rank < size -> (0 < timeout)%Z ->
  let good := (exists k, (5 * Z.of_nat k < timeout)%Z /\ forall s, s < size -> exists a, at_ s = Some a /\ (a <= 5 * Z.of_nat k)%Z) /\
              forall s, s < size -> same s = true in
  (good /\ check_mpi size rank timeout at_ same = Ok Passed) \/ (~ good /\ check_mpi size rank timeout at_ same = Ok Aborted).
Proof.
  intros size rank timeout at_ same R T good.
  set (arrived := fun t => forallb (fun s => match at_ s with Some a => (a <=? t)%Z | None => false end) (recvs size rank)).
  assert (A: forall t, arrived t = true <-> forall s, s < size -> exists a, at_ s = Some a /\ (a <= t)%Z).
  { intros t. unfold arrived. rewrite forallb_forall. split.
    - intros H s K. specialize (H s). assert (I: In s (recvs size rank)).
      { apply (Permutation_in _ (Permutation_sym (recvs_perm size rank R))). apply in_seq. lia. }
      apply H in I. destruct (at_ s) as [a|]; [|discriminate]. apply Z.leb_le in I. eauto.
    - intros H s K. assert (I: In s (seq 0 size)) by exact (Permutation_in _ (recvs_perm size rank R) K).
      apply in_seq in I. destruct (H s) as (a & -> & L); [lia|]. now apply Z.leb_le. }
  unfold check_mpi. fold arrived.
  destruct (waits_spec (Z.to_nat timeout) 0 timeout None arrived ltac:(lia)) as [[(k & K1 & K2) E]|[N E]].
  - rewrite E. destruct (forallb same (seq 0 size)) eqn:F.
    + left. split; [|reflexivity]. split; [exists k; split; [lia|apply A; exact K2]|]. intros s K. rewrite forallb_forall in F. apply F. apply in_seq. lia.
    + right. split; [|reflexivity]. intros [_ K]. assert (X: forallb same (seq 0 size) = true); [|congruence].
      apply forallb_forall. intros s I. apply in_seq in I. apply K. lia.
  - rewrite E. destruct (Z.ltb_spec 0 timeout); [|lia]. right. split; [|reflexivity]. intros [(k & K1 & K2) _].
    specialize (N k ltac:(lia)). assert (X: arrived (0 + 5 * Z.of_nat k)%Z = true) by (apply A; exact K2). congruence.
Qed.
Print Assumptions C161_verdict.
Example C161_example : sends 4 1 = [1; 2; 3; 0] /\ recvs 4 1 = [1; 0; 3; 2] /\
  check_mpi 2 0 20 (fun s => Some (Z.of_nat s * 12)%Z) (fun _ => true) = Ok Passed /\ check_mpi 2 0 20 (fun s => Some (Z.of_nat s * 12)%Z) (fun s => s =? 0) = Ok Aborted.
Proof. repeat split. Qed.

(** C162 *)
Definition InTime (size : nat) (timeout : Z) (at_ : nat -> option Z) : Prop := forall s, s < size -> exists a, at_ s = Some a /\ (a < timeout)%Z.
Theorem C162_sound_partial : forall size rank timeout at_ same, rank < size ->
  check_mpi size rank timeout at_ same = Ok Passed -> InTime size timeout at_ /\ forall s, s < size -> same s = true.
Proof.
  intros size rank timeout at_ same R H. destruct (Z.ltb_spec 0 timeout) as [T|T].
  - destruct (C161_verdict size rank timeout at_ same R T) as [[[(k & K1 & K2) G] _]|[_ E]]; [|congruence].
    split; auto. intros s K. destruct (K2 s K) as (a & A & L). exists a. split; auto. lia.
  - unfold check_mpi in H. replace (Z.to_nat timeout) with 0 in H by lia. discriminate.
Qed.
Print Assumptions C162_sound_partial.
(** Messages arriving after the last look are too late although there is time left. *)
Theorem C162_late_refuted : exists size rank timeout at_, rank < size /\ InTime size timeout at_ /\
  check_mpi size rank timeout at_ (fun _ => true) = Ok Aborted.
Proof.
  exists 1, 0, 240%Z, (fun _ => Some 237%Z). split; [lia|]. split; [|vm_compute; reflexivity]. intros s _. exists 237%Z. split; [reflexivity|lia].
Qed.
Print Assumptions C162_late_refuted.
Theorem C162_timeout_refuted : exists timeout, forall size rank at_ same, check_mpi size rank timeout at_ same = Err UnboundLocalError.
Proof. exists 0%Z. reflexivity. Qed.
Print Assumptions C162_timeout_refuted.
Example C162_example : check_mpi 3 1 6 (fun s => Some 5%Z) (fun _ => true) = Ok Passed /\ check_mpi 3 1 6 (fun s => if s =? 2 then None else Some 0%Z) (fun _ => true) = Ok Aborted.
Proof. split; reflexivity. Qed.

(** C163 *)
Open Scope Z_scope.
Theorem C163_ranks : forall seed entropy cls r1 r2, (Z.of_nat (list_sum (map nat_of_ascii cls)) < 65520) ->
  local_seed seed entropy cls r1 = local_seed seed entropy cls r2 -> r1 = r2.
Proof.
  intros seed entropy cls r1 r2 L H. unfold local_seed in H.
  assert (P: 0 < adler32 cls).
  { unfold adler32. destruct (adler_sum cls 1 0 ltac:(lia) ltac:(lia) ltac:(lia)) as (b & B & E).
    match goal with |- context [fold_left ?f ?s ?p] => replace (fold_left f s p) with (1 + Z.of_nat (list_sum (map nat_of_ascii cls)), b) by (symmetry; exact E) end. lia. }
  set (c := adler32 cls) in *. destruct seed; nia.
Qed.
Print Assumptions C163_ranks.
(** Any name of at most 256 characters. *)
Theorem C163_names : forall seed entropy cls r1 r2, (length cls <= 256)%nat ->
  local_seed seed entropy cls r1 = local_seed seed entropy cls r2 -> r1 = r2.
Proof.
  intros seed entropy cls r1 r2 L. apply C163_ranks.
  assert (G: forall l : str, (list_sum (map nat_of_ascii l) <= 255 * length l)%nat).
  { induction l as [|c l IH]; [cbn; lia|]. pose proof (nat_ascii_bounded c).
    change (list_sum (map nat_of_ascii (c :: l))) with (nat_of_ascii c + list_sum (map nat_of_ascii l))%nat. cbn [length]. lia. }
  specialize (G cls). lia.
Qed.
Print Assumptions C163_names.
(** With a seed the numbers do not depend on the run; the logged number repeats a run without one. *)
Theorem C163_repeat : forall entropy entropy' cls rank,
  local_seed None entropy cls rank = local_seed (Some (entropy 0%nat)) entropy' cls rank /\
  forall s, local_seed (Some s) entropy cls rank = local_seed (Some s) entropy' cls rank.
Proof. intros. split; reflexivity. Qed.
Print Assumptions C163_repeat.
(** The number itself: the seed plus (rank + 1) times the checksum of the class name, with the checksum
    as RFC 1950 defines it. *)
Fixpoint weighted (s : str) : Z :=
  match s with [] => 0 | c :: s => Z.of_nat (S (length s)) * Z.of_nat (nat_of_ascii c) + weighted s end.
Definition rfc1950 (s : str) : Z :=
  65536 * ((Z.of_nat (length s) + weighted s) mod 65521) + (1 + Z.of_nat (list_sum (map nat_of_ascii s))) mod 65521.
Lemma adler_fold : forall s a b, 0 <= a < 65521 -> 0 <= b < 65521 ->
  fold_left (fun '(a, b) c => let a := (a + Z.of_nat (nat_of_ascii c)) mod 65521 in (a, (b + a) mod 65521)) s (a, b)
  = ((a + Z.of_nat (list_sum (map nat_of_ascii s))) mod 65521, (b + Z.of_nat (length s) * a + weighted s) mod 65521).
Proof.
  induction s as [|c s IH]; intros a b A B.
  - cbn [fold_left map list_sum weighted length]. change (list_sum []) with 0%nat. rewrite !Z.mod_small by lia. f_equal; lia.
  - cbn [fold_left]. cbv zeta. rewrite IH by (apply Z.mod_pos_bound; lia).
    change (list_sum (map nat_of_ascii (c :: s))) with (nat_of_ascii c + list_sum (map nat_of_ascii s))%nat.
    cbn [weighted length]. set (d := Z.of_nat (nat_of_ascii c)). f_equal.
    + rewrite Zplus_mod_idemp_l. f_equal. lia.
    + rewrite <- (Z.add_assoc ((b + (a + d) mod 65521) mod 65521)), Zplus_mod_idemp_l.
      replace (b + (a + d) mod 65521 + (Z.of_nat (length s) * ((a + d) mod 65521) + weighted s))
        with (b + weighted s + Z.of_nat (S (length s)) * ((a + d) mod 65521)) by lia.
      rewrite Zplus_mod, Zmult_mod_idemp_r, <- Zplus_mod. f_equal. lia.
Qed.
Theorem C163_value : forall seed entropy cls rank, local_seed seed entropy cls rank
  = match seed with Some s => s | None => entropy 0%nat end + (Z.of_nat rank + 1) * rfc1950 cls.
Proof.
  intros. unfold local_seed, rfc1950, adler32.
  pose proof (adler_fold cls 1 0 ltac:(lia) ltac:(lia)) as E.
  match goal with |- context [fold_left ?f ?s ?p] =>
    match type of E with _ = ?r => replace (fold_left f s p) with r by (symmetry; exact E) end end.
  f_equal. f_equal. rewrite Z.mul_comm, Z.mul_1_r, Z.add_0_l. reflexivity.
Qed.
Print Assumptions C163_value.
(** Classes with different checksums have different seeds on every rank. *)
Theorem C163_classes : forall seed entropy c1 c2 rank, rfc1950 c1 <> rfc1950 c2 ->
  local_seed seed entropy c1 rank <> local_seed seed entropy c2 rank.
Proof. intros seed entropy c1 c2 rank H E. rewrite !C163_value in E. apply H. destruct seed; nia. Qed.
Print Assumptions C163_classes.
Example C163_example : adler32 (s_ "abc") = 38600999 /\ local_seed (Some 7) (fun _ => 0) (s_ "abc") 2 = 115803004.
Proof. split; reflexivity. Qed.

(** C164 *)
(** Two classes with the same checksum. *)
Theorem C164_classes_refuted : exists c1 c2, c1 <> c2 /\ forall seed entropy rank, local_seed seed entropy c1 rank = local_seed seed entropy c2 rank.
Proof. exists (s_ "sim.Tada"), (s_ "sim.Tbbb"). split; [vm_compute; discriminate|]. intros. unfold local_seed. reflexivity. Qed.
Print Assumptions C164_classes_refuted.
(** A seed set on the instance has no effect. *)
Theorem C164_attribute_refuted : exists entropy cls rank s, let t := set_seed (rtask_new entropy cls rank None) s in
  r_seed t = Some s /\ r_local t <> local_seed (r_seed t) entropy cls rank.
Proof. exists (fun _ => 1), (s_ "m.T"), 0%nat, 5. split; [reflexivity|]. vm_compute. discriminate. Qed.
Print Assumptions C164_attribute_refuted.
Theorem C164_configured_partial : forall entropy cls rank config, r_local (rtask_new entropy cls rank config) = local_seed config entropy cls rank.
Proof. reflexivity. Qed.
Print Assumptions C164_configured_partial.
Example C164_example : r_local (set_seed (rtask_new (fun _ => 1) (s_ "abc") 0 None) 5) = 38601000.
Proof. reflexivity. Qed.
