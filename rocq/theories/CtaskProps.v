(** C101-C106: container tasks. *)
From Coq Require Import String.
From Coq Require Import List Ascii Bool Arith ZArith Lia.
From Verif Require Import PyBase PyStr MemModel MemProofs2 AttrModel AttrProofs CopyProofs ContProofs GlobModel FlowProofs CtaskModel CtaskSpec CtaskProofs.
Import ListNotations.
Open Scope list_scope.
Open Scope nat_scope.

(** * C101 *)
(** The variables of format strings. *)
Theorem C101_variables : forall cfg count c ii d, idict cfg count c ii = Ok d ->
  dget (s_ "count") d = Some (VNum count) /\ dget (s_ "task") d = Some (VText (t_class cfg)) /\ dget (s_ "output_root") d = Some (VText (t_root cfg)) /\
  dget (s_ "key") d = Some (VText (nth ii (t_out_keys cfg) [])) /\
  (forall v, dget (s_ "tag") (c_attrs c) = Some v -> dget (s_ "tag") d = Some v) /\
  forall n, ~ In n (map s_ ["tag"; "count"; "task"; "key"; "output_root"]%string) -> dget n d = dget n (c_attrs c).
Proof.
  intros cfg count c ii d H. destruct (idict_ok cfg count c ii d H) as (T & A1 & A2 & A3 & A4 & A5). repeat split; auto.
  intros v Hv. rewrite T. unfold tag_value. now rewrite Hv.
Qed.
Print Assumptions C101_variables.
(** Every output of an accepted call is a container with the tag and the
    attributes of the configuration, formatted; all other attributes are kept. *)
Theorem C101_attributes : forall show_any cfg count o ii c' w, NoDup (map fst (t_attrs cfg)) ->
  process_output show_any cfg count o ii = Ok (Some c', w) ->
  exists c d, o = Cont c /\ idict cfg count c ii = Ok d /\ c_data c' = c_data c /\
    (exists s, Formats (show show_any) (fun n => dget n d) (t_tag cfg) s /\ dget (s_ "tag") (c_attrs c') = Some (VText s)) /\
    (forall k f, k <> s_ "tag" -> In (k, inl f) (t_attrs cfg) -> exists s, Formats (show show_any) (fun n => dget n d) f s /\ dget k (c_attrs c') = Some (VText s)) /\
    (forall k v, k <> s_ "tag" -> In (k, inr v) (t_attrs cfg) -> dget k (c_attrs c') = Some v) /\
    (forall k, k <> s_ "tag" -> ~ In k (map fst (t_attrs cfg)) -> dget k (c_attrs c') = dget k (c_attrs c)).
Proof.
  intros show_any cfg count [c|] ii c' w N H; [|discriminate]. cbn [process_output] in H.
  destruct (idict cfg count c ii) as [d|] eqn:D; [|discriminate]. cbn [rbind] in H. destruct (set_attrs show_any (attrs_to_set cfg) d c) as [c1|] eqn:E; [|discriminate].
  cbn [rbind] in H. destruct ((t_nan_check cfg && nan_found c1) && t_nan_skip cfg); [discriminate|].
  destruct (save_file show_any cfg count c1 ii) as [sf|]; [|discriminate]. cbn [rbind] in H. injection H as <- _.
  unfold attrs_to_set in E. destruct (set_attrs_ok show_any _ d c c1 (dput_nodup _ _ _ N) E) as (A & _ & P1 & P2 & P3).
  assert (M : forall k x, In (k, x) (t_attrs cfg) -> k <> s_ "tag" -> In (k, x) (dput (s_ "tag") (inl (t_tag cfg)) (t_attrs cfg))).
  { intros k x I K. apply (dget_elem _ k _ x). rewrite dget_dput_other by exact K. now apply dget_nodup. }
  exists c, d. split; [reflexivity|]. split; [exact D|]. split; [exact A|]. split; [|split; [|split]].
  - destruct (P1 (s_ "tag") (t_tag cfg)) as (s & F & G); [apply (dget_elem _ (s_ "tag") _), dget_dput_same|]. exists s. split; [now apply format_iff|exact G].
  - intros k f K I. destruct (P1 k f (M _ _ I K)) as (s & F & G). exists s. split; [now apply format_iff|exact G].
  - intros k v K I. exact (P2 k v (M _ _ I K)).
  - intros k K I. apply P3. intros J. apply dput_keys in J as [J|J]; contradiction.
Qed.
Print Assumptions C101_attributes.
(** The default tag: that of the container, else that of the first input, else
    the count. *)
Theorem C101_tag_partial : forall show_any cfg count c input out w n, t_tag cfg = default_tag -> t_attrs cfg = [] ->
  next show_any cfg (POne (Cont c)) count input = Ok (NOne (Some out), w, n) ->
  n = S count /\ dget (s_ "input_tags") (c_attrs out) = Some (VTags (map (input_tag show_any) input)) /\
  dget (s_ "tag") (c_attrs out) = Some (VText (
    match dget (s_ "tag") (c_attrs c) with
    | Some v => show show_any v
    | None => match input with
              | Cont i :: _ => match dget (s_ "tag") (c_attrs i) with Some v => show show_any v | None => s_ "None" end
              | NotCont :: _ => []
              | [] => decimal count
              end
    end)).
Proof.
  intros show_any cfg count c input out w n T A H. cbn [next set_input_tags rbind] in H.
  set (c1 := set_attr (s_ "input_tags") (VTags (map (input_tag show_any) input)) c) in *. cbn [process_outputs] in H.
  destruct (process_output show_any cfg count (Cont c1) 0) as [[o w']|] eqn:P; [|discriminate]. cbn [rbind] in H.
  injection H as -> _ <-. split; [reflexivity|].
  destruct (C101_attributes show_any cfg count (Cont c1) 0 out w') as (c2 & d & E & D & _ & (s & F & G) & _ & _ & K); [rewrite A; constructor|exact P|].
  injection E as <-. rewrite A in K. split.
  - rewrite K; [|discriminate|intros []]. unfold c1. cbn [set_attr c_attrs]. apply dget_dput_same.
  - rewrite G. f_equal. f_equal. rewrite T in F. unfold default_tag in F. inversion F as [| |? v ? r L F']; subst. inversion F'; subst. rewrite app_nil_r.
    destruct (idict_ok cfg count c1 0 d D) as (T1 & _). change (dget (s_ "tag") d = Some v) in L. rewrite T1 in L. injection L as <-. unfold tag_value, c1. cbn [set_attr c_attrs].
    rewrite dget_dput_other by discriminate. destruct (dget (s_ "tag") (c_attrs c)) as [v|]; [reflexivity|]. rewrite dget_dput_same.
    destruct input as [|[i|] input]; reflexivity.
Qed.
Print Assumptions C101_tag_partial.
(** The documentation: without a tag the count is used. *)
Theorem C101_untagged_refuted : exists show_any cfg c i count out w n, t_tag cfg = default_tag /\
  dget (s_ "tag") (c_attrs c) = None /\ dget (s_ "tag") (c_attrs i) = None /\
  next show_any cfg (POne (Cont c)) count [Cont i] = Ok (NOne (Some out), w, n) /\ dget (s_ "tag") (c_attrs out) = Some (VText (s_ "None")).
Proof.
  exists (fun _ => []), (mkconfig (s_ "T") default_tag [] (inl false) (inl default_name) [] true true true []), (mkcont [] (Grp []) []), (mkcont [] (Grp []) []), 5.
  do 3 eexists. repeat split.
Qed.
Print Assumptions C101_untagged_refuted.

Example C101_example : let cfg := mkconfig (s_ "T") default_tag [(s_ "note", inl [Lit (s_ "by "); Var (s_ "task"); Lit (s_ " "); Var (s_ "lsd")]); (s_ "k", inr (VNum 3))] (inl false) (inl default_name) [] true true true [] in
  let i := mkcont [(s_ "tag", VText (s_ "in"))] (Grp []) [] in let o := mkcont [(s_ "lsd", VNum 12)] (Grp []) [] in
  exists c, next (fun _ => []) cfg (POne (Cont o)) 5 [Cont i; Cont o] = Ok (NOne (Some c), [], 6) /\
    dget (s_ "tag") (c_attrs c) = Some (VText (s_ "in")) /\ dget (s_ "note") (c_attrs c) = Some (VText (s_ "by T 12")) /\
    dget (s_ "k") (c_attrs c) = Some (VNum 3) /\ dget (s_ "lsd") (c_attrs c) = Some (VNum 12) /\ dget (s_ "input_tags") (c_attrs c) = Some (VTags [s_ "in"; s_ "None"]).
Proof. eexists. repeat split. Qed.

(** * C102 *)
Definition plain (cfg : config) : Prop :=
  t_tag cfg = default_tag /\ t_attrs cfg = [] /\ t_name cfg = inl default_name /\ t_save cfg = inl true.
Lemma next_name : forall show_any cfg count c input out w n, plain cfg -> nan_found c = false \/ t_nan_check cfg = false ->
  next show_any cfg (POne (Cont c)) count input = Ok (out, w, n) ->
  n = S count /\ w = [t_root cfg ++ (match dget (s_ "tag") (c_attrs c) with
    | Some v => show show_any v
    | None => match input with [] => decimal count | i :: _ => input_tag show_any i end
    end) ++ s_ ".h5"].
Proof.
  intros show_any cfg count c input out w n (T & A & Nm & Sv) Hn H.
  unfold next in H. cbn [set_input_tags rbind] in H. set (c1 := set_attr (s_ "input_tags") (VTags (map (input_tag show_any) input)) c) in *.
  cbn [process_outputs process_output] in H. destruct (idict cfg count c1 0) as [d|] eqn:D; [|discriminate]. cbn [rbind] in H.
  unfold attrs_to_set in H. rewrite A, T in H. cbn [dput set_attrs] in H.
  destruct (idict_ok cfg count c1 0 d D) as (T1 & _). unfold default_tag in H. cbn [format] in H. rewrite T1 in H. cbn [rbind] in H. rewrite app_nil_r in H.
  set (tv := show show_any (tag_value count (c_attrs c1))) in *.
  set (c2 := set_attr (s_ "tag") (VText tv) c1) in *.
  assert (NF : t_nan_check cfg && nan_found c2 = false).
  { destruct Hn as [Hn|Hn]; [|now rewrite Hn]. replace (nan_found c2) with (nan_found c) by reflexivity. rewrite Hn. apply andb_false_r. }
  rewrite NF in H. cbn [andb app] in H. unfold save_file in H. rewrite Sv, Nm in H. cbn [rbind] in H.
  destruct (idict cfg count c2 0) as [d2|] eqn:D2; [|discriminate]. cbn [rbind] in H.
  destruct (idict_ok cfg count c2 0 d2 D2) as (T2 & _ & _ & R2 & _). unfold default_name in H. cbn [format] in H. rewrite R2, T2 in H. cbn [rbind wrap] in H.
  injection H as _ <- <-. split; [reflexivity|]. cbn [show]. f_equal. f_equal. f_equal.
  unfold tag_value at 1, c2. cbn [set_attr c_attrs]. rewrite dget_dput_same. cbn [show]. unfold tv, tag_value, c1. cbn [set_attr c_attrs].
  rewrite dget_dput_other by discriminate. destruct (dget (s_ "tag") (c_attrs c)) as [v|]; [reflexivity|]. rewrite dget_dput_same. destruct input; reflexivity.
Qed.
(** A task without inputs numbers its untagged outputs: no file is overwritten. *)
Theorem C102_numbered_partial : forall show_any cfg cs ws, plain cfg ->
  (forall c, In c cs -> dget (s_ "tag") (c_attrs c) = None /\ nan_found c = false) ->
  run show_any cfg 0 (map (fun c => (POne (Cont c), [])) cs) = Ok ws ->
  (forall i w, nth_error ws i = Some w -> w = [t_root cfg ++ decimal i ++ s_ ".h5"]) /\ NoDup (concat ws) /\ length (concat ws) = length cs.
Proof.
  intros show_any cfg cs ws Pl H R.
  assert (G : forall cs k ws, (forall c, In c cs -> dget (s_ "tag") (c_attrs c) = None /\ nan_found c = false) ->
    run show_any cfg k (map (fun c => (POne (Cont c), [])) cs) = Ok ws -> ws = map (fun i => [t_root cfg ++ decimal i ++ s_ ".h5"]) (seq k (length cs))).
  { clear - Pl. induction cs as [|c cs IH]; intros k ws H R; cbn [map run] in R; [injection R as <-; reflexivity|].
    destruct (next show_any cfg (POne (Cont c)) k []) as [[[o w] n]|] eqn:E; [|discriminate]. cbn [rbind] in R.
    destruct (H c (or_introl eq_refl)) as [H1 H2]. destruct (next_name show_any cfg k c [] o w n Pl (or_introl H2) E) as [-> W]. rewrite H1 in W. subst w.
    destruct (run show_any cfg (S k) (map (fun c => (POne (Cont c), [])) cs)) as [ws'|] eqn:E'; [|discriminate]. cbn [rbind] in R. injection R as <-.
    cbn [length seq map]. f_equal. apply IH; auto. intros; apply H; now right. }
  rewrite (G cs 0 ws H R). split; [|split].
  - intros i w N. rewrite nth_error_map in N. destruct (nth_error (seq 0 (length cs)) i) as [j|] eqn:E; [|discriminate]. injection N as <-.
    assert (j = i); [|now subst]. assert (Hi : i < length (seq 0 (length cs))) by (apply nth_error_Some; congruence). rewrite seq_length in Hi.
    apply nth_error_nth with (d := 0) in E. rewrite seq_nth in E by exact Hi. lia.
  - assert (X : forall l, NoDup l -> NoDup (concat (map (fun i => [t_root cfg ++ decimal i ++ s_ ".h5"]) l))).
    { clear. induction 1 as [|i l I N IH]; cbn [map concat app]; constructor; auto. intros K. apply in_concat in K as (y & Iy & Ky).
      apply in_map_iff in Iy as (j & <- & Ij). destruct Ky as [Ky|[]]. apply app_inv_head in Ky. apply app_inv_tail in Ky. apply decimal_inj in Ky. now subst. }
    apply X, seq_NoDup.
  - generalize 0. induction (length cs) as [|n IH]; intros k; [reflexivity|]. cbn [seq map concat app length]. f_equal. apply IH.
Qed.
Print Assumptions C102_numbered_partial.
(** A task with inputs: the tags of its first inputs name the files. *)
Theorem C102_inputs_partial : forall show_any cfg calls ws, plain cfg ->
  (forall c i rest, In (c, i, rest) calls -> dget (s_ "tag") (c_attrs c) = None /\ nan_found c = false /\ dget (s_ "tag") (c_attrs i) <> None) ->
  run show_any cfg 0 (map (fun '(c, i, rest) => (POne (Cont c), Cont i :: rest)) calls) = Ok ws ->
  ws = map (fun '(c, i, rest) => [t_root cfg ++ input_tag show_any (Cont i) ++ s_ ".h5"]) calls.
Proof.
  intros show_any cfg calls ws Pl. generalize 0. revert ws. induction calls as [|[[c i] rest] calls IH]; intros ws k H R; cbn [map run] in R; [injection R as <-; reflexivity|].
  destruct (next show_any cfg (POne (Cont c)) k (Cont i :: rest)) as [[[o w] n]|] eqn:E; [|discriminate]. cbn [rbind] in R.
  destruct (H c i rest (or_introl eq_refl)) as (H1 & H2 & H3). destruct (next_name show_any cfg k c _ o w n Pl (or_introl H2) E) as [-> W]. rewrite H1 in W. subst w.
  destruct (run show_any cfg (S k) _) as [ws'|] eqn:E'; [|discriminate]. cbn [rbind] in R. injection R as <-. cbn [map]. f_equal.
  eapply IH; eauto. intros c0 i0 r0 I. apply (H c0 i0 r0). now right.
Qed.
Print Assumptions C102_inputs_partial.
Definition c0 : cont := mkcont [] (Grp [DNum [Finite]]) [].
Definition cfg0 : config := mkconfig (s_ "T") default_tag [] (inl true) (inl default_name) (s_ "out_") true true true [].
(** Untagged inputs: all outputs go to one file. *)
Theorem C102_untagged_refuted : exists cfg c i, plain cfg /\
  run (fun _ => []) cfg 0 [(POne (Cont c), [Cont i]); (POne (Cont c), [Cont i])] = Ok [[s_ "out_None.h5"]; [s_ "out_None.h5"]].
Proof. exists cfg0, c0, c0. split; [repeat split|reflexivity]. Qed.
Print Assumptions C102_untagged_refuted.
(** Two outputs of one call go to one file. *)
Theorem C102_two_outputs_refuted : exists cfg c, plain cfg /\
  run (fun _ => []) cfg 0 [(PTuple [Cont c; Cont c], [])] = Ok [[s_ "out_0.h5"; s_ "out_0.h5"]].
Proof. exists cfg0, c0. split; [repeat split|reflexivity]. Qed.
Print Assumptions C102_two_outputs_refuted.
Definition tagged_cont (t : str) : cont := mkcont [(s_ "tag", VText t); (s_ "lsd", VNum 12)] (Grp []) [].
Example C102_example :
  run (fun _ => []) cfg0 0 [(POne (Cont c0), []); (PNone, []); (POne (Cont c0), [Cont (tagged_cont (s_ "x"))]); (POne (Cont (tagged_cont (s_ "own"))), [Cont c0])] =
    Ok [[s_ "out_0.h5"]; []; [s_ "out_x.h5"]; [s_ "out_own.h5"]] /\
  run (fun _ => []) (mkconfig (s_ "T") [Lit (s_ "cat"); Var (s_ "count")] [] (inr [true; false]) (inr [[Var (s_ "task"); Var (s_ "key"); Var (s_ "tag")]; []]) [] true true true (map s_ ["a"; "b"]%string)) 7
    [(PTuple [Cont c0; Cont c0], [])] = Ok [[s_ "Tacat7"]] /\
  run (fun _ => []) (mkconfig (s_ "T") [Var (s_ "lsd")] [] (inl true) (inl default_name) [] true true true []) 0 [(POne (Cont (tagged_cont (s_ "x"))), [])] = Ok [[s_ "12.h5"]] /\
  run (fun _ => []) (mkconfig (s_ "T") [Var (s_ "nope")] [] (inl true) (inl default_name) [] true true true []) 0 [(POne (Cont c0), [])] = Err KeyError.
Proof. repeat split. Qed.

(** * C103 *)
(** All ranks come to the same answer: is there a number which is not finite? *)
Theorem C103_agree_partial : forall trees, nan_check_walk trees = true <-> exists n, In n trees /\ NotFinite n.
Proof. exact nan_check_iff. Qed.
Print Assumptions C103_agree_partial.
(** With [nan_skip] such an output is neither passed on nor saved. *)
Theorem C103_skipped : forall show_any cfg count c ii r, t_nan_check cfg = true -> t_nan_skip cfg = true ->
  (exists n, In n (c_data c :: c_others c) /\ NotFinite n) -> NoDup (map fst (t_attrs cfg)) -> process_output show_any cfg count (Cont c) ii = Ok r ->
  exists c', r = (None, if t_nan_dump cfg then [dump_name show_any cfg count c'] else []) /\ c_data c' = c_data c.
Proof.
  intros show_any cfg count c ii r Hc Hs Hn N H. cbn [process_output] in H. destruct (idict cfg count c ii) as [d|]; [|discriminate]. cbn [rbind] in H.
  destruct (set_attrs show_any (attrs_to_set cfg) d c) as [c1|] eqn:E; [|discriminate]. cbn [rbind] in H.
  destruct (set_attrs_ok show_any _ d c c1 (dput_nodup _ _ _ N) E) as (A & B & _).
  assert (F : nan_found c1 = true) by (apply nan_found_iff; rewrite A, B; exact Hn). rewrite Hc, Hs, F in H. cbn [andb] in H. injection H as <-. exists c1. auto.
Qed.
Print Assumptions C103_skipped.
(** Other outputs are passed on, as without the check. *)
Theorem C103_passed : forall show_any cfg count c ii r, (forall n, In n (c_data c :: c_others c) -> ~ NotFinite n) -> NoDup (map fst (t_attrs cfg)) ->
  process_output show_any cfg count (Cont c) ii = Ok r ->
  exists c' w, r = (Some c', w) /\ c_data c' = c_data c /\ save_file show_any cfg count c' ii = Ok w.
Proof.
  intros show_any cfg count c ii r Hn N H. cbn [process_output] in H. destruct (idict cfg count c ii) as [d|]; [|discriminate]. cbn [rbind] in H.
  destruct (set_attrs show_any (attrs_to_set cfg) d c) as [c1|] eqn:E; [|discriminate]. cbn [rbind] in H.
  destruct (set_attrs_ok show_any _ d c c1 (dput_nodup _ _ _ N) E) as (A & B & _).
  assert (F : nan_found c1 = false). { apply not_true_iff_false. intros K. apply nan_found_iff in K as (n & I & K). rewrite A, B in I. exact (Hn n I K). }
  rewrite F, andb_false_r in H. cbn [andb app] in H. destruct (save_file show_any cfg count c1 ii) as [w|] eqn:S; [|discriminate]. cbn [rbind] in H. injection H as <-. eauto.
Qed.
Print Assumptions C103_passed.
(** Compound datasets are not looked at. *)
Theorem C103_compound_refuted : exists c out w n, In (DCompound [NaN]) (c_data c :: c_others c) /\
  next (fun _ => []) cfg0 (POne (Cont c)) 0 [] = Ok (NOne (Some out), w, n).
Proof. exists (mkcont [] (DCompound [NaN]) []). do 3 eexists. split; [now left|reflexivity]. Qed.
Print Assumptions C103_compound_refuted.
(** One of two outputs skipped: nothing is passed on in its place. *)
Theorem C103_pair_refuted : exists c c' out w n, NotFinite (c_data c) /\
  next (fun _ => []) cfg0 (PTuple [Cont c; Cont c']) 0 [] = Ok (NTuple [None; Some out], w, n).
Proof. exists (mkcont [] (DNum [Finite; NaN]) []), c0. do 3 eexists. split; [constructor; cbn; auto|reflexivity]. Qed.
Print Assumptions C103_pair_refuted.
Example C103_example : nan_check_walk [Grp [DNum [Finite]; Grp [DCompound [NaN]; DNum []]]; Grp [DNum [Finite]]] = false /\
  nan_check_walk [Grp [DNum [Finite]]; Grp [DNum [Finite]; Grp [DNum [Inf]]]] = true /\
  next (fun _ => []) cfg0 (POne (Cont (mkcont [] (Grp []) [DNum [NaN]]))) 3 [] = Ok (NOne None, [s_ "nandump_T_3.h5"], 4).
Proof. repeat split. Qed.

(** * C104 *)
(** [finish] reports outputs which are not containers. *)
Theorem C104_finish : forall show_any cfg count l, In NotCont l -> (forall ii o e, In o l -> o <> NotCont -> process_output show_any cfg count o ii <> Err e) ->
  finish show_any cfg (PTuple l) count = Err PipelineRuntimeError.
Proof.
  intros show_any cfg count l I H. cbn [finish]. assert (G : forall ii, process_outputs show_any cfg count l ii = Err PipelineRuntimeError).
  { revert I H. induction l as [|o l IH]; intros I H ii; [destruct I|]. cbn [process_outputs]. destruct o as [c|]; [|reflexivity].
    destruct (process_output show_any cfg count (Cont c) ii) as [[c' w]|e] eqn:E; [|elim (H ii (Cont c) e (or_introl eq_refl)); [discriminate|exact E]].
    cbn [rbind]. destruct I as [I|I]; [discriminate|]. rewrite IH; auto. intros ii' o e Io. apply H. now right. }
  rewrite G. reflexivity.
Qed.
Print Assumptions C104_finish.
(** [next] fails too, but not with the error of the documentation; it never
    passes such an output on. *)
Theorem C104_next : forall show_any cfg count l input, In NotCont l -> next show_any cfg (PTuple l) count input = Err AttributeError.
Proof.
  intros show_any cfg count l input I. cbn [next]. assert (G : forall tags, set_input_tags tags l = Err AttributeError).
  { intros tags. induction l as [|o l IH]; [destruct I|]. destruct o as [c|]; [|reflexivity]. cbn [set_input_tags]. destruct I as [I|I]; [discriminate|]. now rewrite IH. }
  now rewrite G.
Qed.
Print Assumptions C104_next.
Theorem C104_error_refuted : exists show_any cfg count, next show_any cfg (POne NotCont) count [] = Err AttributeError /\ finish show_any cfg (POne NotCont) count = Err PipelineRuntimeError.
Proof. exists (fun _ => []), cfg0, 0. split; reflexivity. Qed.
Print Assumptions C104_error_refuted.
(** No outputs at all. *)
Theorem C104_empty_refuted : exists show_any cfg, forall count input, next show_any cfg (PTuple []) count input = Err IndexError.
Proof. exists (fun _ => []), cfg0. reflexivity. Qed.
Print Assumptions C104_empty_refuted.
(** The count goes up with every call that has output, and only then. *)
Theorem C104_count : forall show_any cfg p count input out w n, next show_any cfg p count input = Ok (out, w, n) ->
  (p = PNone /\ out = NNone /\ w = [] /\ n = count) \/ (p <> PNone /\ out <> NNone /\ n = S count).
Proof.
  intros show_any cfg p count input out w n H. destruct p as [|o|l]; cbn [next] in H; [injection H as <- <- <-; auto| |]; right.
  - destruct (set_input_tags _ [o]) as [os|]; [|discriminate]. cbn [rbind] in H. destruct (process_outputs show_any cfg count os 0) as [[cs ws]|]; [|discriminate]. cbn [rbind] in H.
    destruct cs as [|c [|c2 cs]]; cbn [wrap rbind] in H; [discriminate| |]; injection H as <- _ <-; repeat split; discriminate.
  - destruct (set_input_tags _ l) as [os|]; [|discriminate]. cbn [rbind] in H. destruct (process_outputs show_any cfg count os 0) as [[cs ws]|]; [|discriminate]. cbn [rbind] in H.
    destruct cs as [|c [|c2 cs]]; cbn [wrap rbind] in H; [discriminate| |]; injection H as <- _ <-; repeat split; discriminate.
Qed.
Print Assumptions C104_count.
(** Outputs keep their number and order. *)
Theorem C104_order : forall show_any cfg cs count input out w n, 2 <= length cs ->
  next show_any cfg (PTuple (map Cont cs)) count input = Ok (out, w, n) ->
  exists os, out = NTuple os /\ length os = length cs /\ forall j c, nth_error cs j = Some c ->
    exists o w', process_output show_any cfg count (Cont (set_attr (s_ "input_tags") (VTags (map (input_tag show_any) input)) c)) j = Ok (o, w') /\ nth_error os j = Some o /\ incl w' w.
Proof.
  intros show_any cfg cs count input out w n L H. cbn [next] in H. rewrite set_input_tags_ok in H. cbn [rbind] in H.
  destruct (process_outputs show_any cfg count _ 0) as [[os ws]|] eqn:P; [|discriminate]. cbn [rbind] in H.
  destruct (process_outputs_nth show_any cfg _ _ _ _ _ P) as [Lo X]. rewrite map_length in Lo.
  destruct os as [|o1 [|o2 os]]; try (cbn in Lo; lia). cbn [wrap rbind] in H. injection H as <- <- _. exists (o1 :: o2 :: os). split; [reflexivity|]. split; [exact Lo|].
  intros j c N. destruct (X j (Cont (set_attr (s_ "input_tags") (VTags (map (input_tag show_any) input)) c))) as (o & w' & Q & R & I); [|exists o, w'; auto].
  rewrite nth_error_map, N. reflexivity.
Qed.
Print Assumptions C104_order.
Example C104_example : next (fun _ => []) cfg0 (PTuple [Cont c0; NotCont]) 0 [] = Err AttributeError /\ next (fun _ => []) cfg0 PNone 4 [Cont c0] = Ok (NNone, [], 4).
Proof. split; reflexivity. Qed.

(** * C105 *)
(** The setup arguments are dealt out in order; each subtask gets its own. *)
Theorem C105_setup : forall (V S : Type) (tasks : list (@subtask V S)) (args : list (list V)) rest st, Forall2 (fun t a => length a = s_nargs t) tasks args ->
  group_setup tasks (concat args ++ rest) st = fold_left (fun st ta => rbind st (s_setup (fst ta) (snd ta))) (combine tasks args) (Ok st).
Proof.
  intros V S tasks args rest st F. revert st. induction F as [|t a tasks args L F IH]; intros st; [reflexivity|].
  cbn [concat group_setup combine fold_left fst snd rbind]. rewrite <- app_assoc, firstn_app, <- L, firstn_all, Nat.sub_diag, firstn_O, app_nil_r.
  rewrite skipn_app, skipn_all, Nat.sub_diag. cbn [app skipn]. destruct (s_setup t a st) as [st'|e]; cbn [rbind]; [apply IH|].
  clear. induction (combine tasks args) as [|x l IH]; [reflexivity|]. exact IH.
Qed.
Print Assumptions C105_setup.
(** The outputs are handed from subtask to subtask. *)
Theorem C105_process : forall (V S : Type) (tasks : list (@subtask V S)) t x st,
  group_process (tasks ++ [t]) x st = rbind (group_process tasks x st) (fun '(y, st) => s_process t y st) /\ group_process [] x st = Ok (x, st).
Proof.
  intros V S tasks t. split; [|reflexivity]. revert x st. induction tasks as [|u tasks IH]; intros x st; cbn [app group_process].
  - cbn [rbind]. destruct (s_process t x st) as [[y st']|]; reflexivity.
  - destruct (s_process u x st) as [[y st']|e]; cbn [rbind]; [apply IH|reflexivity].
Qed.
Print Assumptions C105_process.
(** Arguments which nobody wants go unnoticed. *)
Theorem C105_extra_refuted : exists (tasks : list (@subtask nat (list nat))) args st, fold_right (fun t n => s_nargs t + n) 0 tasks < length args /\ group_setup tasks args [] = Ok st.
Proof. exists [mksub 1 (fun a st => Ok (st ++ a)) (fun x st => Ok (x, st))], [4; 5], [4]. split; [cbn; lia|reflexivity]. Qed.
Print Assumptions C105_extra_refuted.
(** A subtask without output hands on nothing, and the next one is called. *)
Theorem C105_none_refuted : exists (t1 t2 : @subtask (option nat) nat) st, s_process t1 (Some 1) 0 = Ok (None, 0) /\ group_process [t1; t2] (Some 1) 0 = Err TypeError /\ st = 0.
Proof.
  exists (mksub 0 (fun _ st => Ok st) (fun _ st => Ok (None, st))), (mksub 0 (fun _ st => Ok st) (fun x st => match x with None => Err TypeError | Some n => Ok (Some (S n), st) end)), 0.
  repeat split.
Qed.
Print Assumptions C105_none_refuted.
Example C105_example : let t k := mksub k (fun a st => Ok (st ++ [a])) (fun x st => Ok (x * 2 + k, st)) in
  group_setup [t 1; t 0; t 2] [7; 8; 9] [] = Ok [[7]; []; [8; 9]] /\ group_process [t 1; t 0; t 2] 5 [] = Ok (46, []).
Proof. split; reflexivity. Qed.

(** * C106 *)
Theorem C106_levels : forall x, log_level x = match x with
  | LInt z => Ok z
  | LStr s => if in_dec str_eq_dec s (map s_ ["DEBUG"; "INFO"; "WARN"; "WARNING"; "ERROR"; "CRITICAL"]%string) then log_level x else Err ValueError
  | LOther => Err ValueError
  end.
Proof.
  intros [z|s|]; try reflexivity. destruct (in_dec str_eq_dec s _) as [I|I]; [reflexivity|]. unfold log_level.
  destruct (dget s level_dict) as [v|] eqn:G; [|reflexivity]. exfalso. apply I. apply dget_elem in G. apply (in_map fst) in G. exact G.
Qed.
Print Assumptions C106_levels.
Theorem C106_names : map (fun s => log_level (LStr (s_ s))) ["DEBUG"; "INFO"; "WARN"; "WARNING"; "ERROR"; "CRITICAL"]%string = map Ok [10; 20; 30; 30; 40; 50]%Z.
Proof. reflexivity. Qed.
Print Assumptions C106_names.
(** The name is converted to upper case, but only after it was looked up. *)
Theorem C106_lower_refuted : exists s, upper s = s_ "DEBUG" /\ log_level (LStr s) = Err ValueError.
Proof. exists (s_ "debug"). split; reflexivity. Qed.
Print Assumptions C106_lower_refuted.
Example C106_example : log_level (LInt 15) = Ok 15%Z /\ log_level LOther = Err ValueError /\ log_level (LStr (s_ "FATAL")) = Err ValueError.
Proof. repeat split. Qed.
