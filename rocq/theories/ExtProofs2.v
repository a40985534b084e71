(** The base classes with files. *)
From Coq Require Import String.
From Coq Require Import List Ascii Bool Arith ZArith Lia.
From Verif Require Import PyBase PyStr PipeModel FmtModel ExtModel ExtSpec.
Import ListNotations.
Open Scope list_scope.
Open Scope nat_scope.

Lemma validate_iff : forall c p n, validate c p n = Ok tt <-> plain_args p /\ one_source c p n.
Proof.
  intros c [na va vk ko de] n. unfold validate, plain_args, one_source. cbn [p_nargs p_varargs p_varkw p_kwonly p_defaults].
  assert (R : seqb (input_root c) none_ = true <-> input_root c = none_) by apply seqb_eq.
  destruct (Nat.ltb_spec 1 na).
  { split; [discriminate|]. lia. }
  destruct va, vk, ko, de; cbn [orb]; try (split; [discriminate|intros ((A & B & C & D) & _); discriminate]).
  destruct (seqb (input_root c) none_).
  - assert (input_root c = none_) by now apply R. destruct (Nat.eqb_spec n na) as [->|N].
    + split; [intros _; repeat split|auto]. destruct na as [|[|]]; [auto|auto|lia].
    + split; [discriminate|]. intros (_ & [(-> & _ & ->)|[(-> & _ & ->)|(-> & N' & ->)]]); congruence.
  - assert (input_root c <> none_) by (intros E; apply R in E; discriminate).
    destruct (Nat.eqb_spec n 0) as [->|N]; cbn [negb].
    + destruct (Nat.eqb_spec na 1) as [->|N]; cbn [negb].
      * split; auto 10.
      * split; [discriminate|]. intros (_ & [(-> & E & _)|[(-> & E & _)|(-> & _)]]); congruence.
    + split; [discriminate|]. intros (_ & [(_ & _ & ->)|[(_ & E & _)|(_ & _ & ->)]]); congruence.
Qed.
Lemma validate_err : forall c p n, (exists u, validate c p n = Ok u) \/ validate c p n = Err CaputConfigError.
Proof.
  intros c p n. unfold validate.
  repeat match goal with |- context [if ?b then _ else _] => destruct b end; eauto.
Qed.

(** ** [dirname] *)
Lemma upto_slash_nil : forall r, upto_slash r = [] <-> ~ In "/"%char r.
Proof.
  induction r as [|c r IH]; cbn; [tauto|].
  destruct (ceqb c "/") eqn:E.
  - apply ceqb_eq in E. subst c. split; [discriminate|intros H; exfalso; auto].
  - assert (c <> "/"%char) by (intros ->; rewrite (proj2 (ceqb_eq _ _) eq_refl) in E; discriminate).
    rewrite IH. split; [intros H0 [F|F]; [congruence|auto]|tauto].
Qed.
Lemma dirname_nil : forall f, dirname f = [] <-> ~ in_dir f.
Proof.
  intros f. unfold dirname, in_dir. rewrite (in_rev f). rewrite <- upto_slash_nil.
  set (h := upto_slash (rev f)). split.
  - destruct (drop_slashes h) as [|c r] eqn:E.
    + intros H. apply (f_equal (@rev ascii)) in H. rewrite rev_involutive in H. exact H.
    + intros H. apply (f_equal (@rev ascii)) in H. rewrite rev_involutive in H. discriminate.
  - intros ->. reflexivity.
Qed.

Section F.
Context {V U : Type}.
Variable E : env V U.

(** ** One call *)
Lemma read_process_write_reads : forall c noin u input infile outfile u' l r,
  read_process_write E c noin u input infile outfile = (u', (l, r)) ->
  reads l = match input, noin, infile with
            | None, false, Some f => [e_expand E (input_root c ++ f)]
            | _, _, _ => []
            end.
Proof.
  assert (W : forall c output outfile, reads (fst (write_part E c output outfile)) = []).
  { intros c [v|] [f|]; cbn; repeat match goal with
      | |- context [if ?b then _ else _] => destruct b
      | |- context [match ?x with Ok _ => _ | Err _ => _ end] => destruct x
      end; reflexivity. }
  assert (Pr : forall c noin u input outfile, reads (fst (snd (process_part E c noin u input outfile))) = []).
  { intros c noin u input outfile. unfold process_part.
    destruct (noin && match input with Some _ => true | None => false end)%bool; [reflexivity|].
    destruct (e_process E u (if noin then None else input)) as [u' [o|e]]; [apply W|reflexivity]. }
  intros c noin u input infile outfile u' l r H. unfold read_process_write in H.
  destruct input as [v|].
  - assert (G := Pr c noin u (Some v) outfile). rewrite H in G. exact G.
  - destruct noin.
    + assert (G := Pr c true u None outfile). rewrite H in G. exact G.
    + destruct infile as [f|]; [|injection H as <- <- <-; reflexivity]. cbn zeta in H.
      destruct (e_read E (e_expand E (input_root c ++ f))) as [v|e]; [|injection H as <- <- <-; reflexivity].
      assert (G := Pr c false u (Some v) outfile).
      destruct (process_part E c false u (Some v) outfile) as [u1 [l1 r1]]. injection H as <- <- <-.
      cbn in G |- *. now rewrite G.
Qed.

(** What a successful call wrote. *)
Definition wrote (c : iocfg) (outfile : option str) (o : option V) : list (str * V) :=
  match o, outfile with
  | Some v, Some f => if seqb (output_root c) none_ then [] else [(e_expand E (output_root c ++ f), v)]
  | _, _ => []
  end.
Lemma read_process_write_writes : forall c noin u input infile outfile u' l o,
  read_process_write E c noin u input infile outfile = (u', (l, Ok o)) ->
  writes l = wrote c outfile o /\
  (o <> None -> outfile = None -> output_root c = none_).
Proof.
  assert (W : forall c output outfile l o, write_part E c output outfile = (l, Ok o) ->
    writes l = wrote c outfile o /\ (o <> None -> outfile = None -> output_root c = none_)).
  { intros c [v|] outfile l o H; unfold write_part in H.
    2: { injection H as <- <-. split; [reflexivity|congruence]. }
    destruct (seqb (output_root c) none_) eqn:Es; cbn [negb] in H.
    - injection H as <- <-. unfold wrote. rewrite Es. split; [destruct outfile; reflexivity|].
      intros _ _. now apply seqb_eq.
    - destruct outfile as [f|]; [|discriminate]. cbn zeta in H.
      split; [|discriminate].
      destruct (e_write E (e_expand E (output_root c ++ f)) v) as [[]|e]; cbn [fst snd] in H.
      + destruct (e_isdir E (dirname (e_expand E (output_root c ++ f)))); cbn [negb] in H.
        * injection H as <- <-. unfold wrote. rewrite Es. reflexivity.
        * destruct (makedirs E (dirname (e_expand E (output_root c ++ f)))); [|discriminate].
          injection H as <- <-. unfold wrote. rewrite Es. reflexivity.
      + destruct (e_isdir E (dirname (e_expand E (output_root c ++ f)))); cbn [negb] in H; [discriminate|].
        destruct (makedirs E (dirname (e_expand E (output_root c ++ f)))); discriminate. }
  assert (Pr : forall c noin u input outfile u' l o, process_part E c noin u input outfile = (u', (l, Ok o)) ->
    writes l = wrote c outfile o /\ (o <> None -> outfile = None -> output_root c = none_)).
  { intros c noin u input outfile u' l o H. unfold process_part in H.
    destruct (noin && match input with Some _ => true | None => false end)%bool; [discriminate|].
    destruct (e_process E u (if noin then None else input)) as [u1 [x|e]]; [|discriminate].
    injection H as _ H. eapply W; eauto. }
  intros c noin u input infile outfile u' l o H. unfold read_process_write in H.
  destruct input as [v|]; [eauto|]. destruct noin; [eauto|].
  destruct infile as [f|]; [|discriminate]. cbn zeta in H.
  destruct (e_read E (e_expand E (input_root c ++ f))) as [v|e]; [|discriminate].
  destruct (process_part E c false u (Some v) outfile) as [u1 [l1 r1]] eqn:Ep. injection H as <- <- ->.
  cbn. eapply Pr; eauto.
Qed.

(** ** Successive calls *)
Variable c : itcfg.
Definition in_name (m : str) : str := e_expand E (input_root (it_io c) ++ m ++ it_inext c).
Definition out_name (m : str) : str := e_expand E (output_root (it_io c) ++ m ++ it_outext c).

Lemma iter_next_files : forall i u u' i' l r m, nth_error (it_middles c) i = Some m ->
  iter_next E c false (i, u) None = ((i', u'), (l, r)) ->
  reads l = [in_name m] /\
  match r with
  | Ok o => i' = S i /\ writes l = match o with
              | Some v => if seqb (output_root (it_io c)) none_ then [] else [(out_name m, v)]
              | None => [] end
  | Err _ => i' = i
  end.
Proof.
  intros i u u' i' l r m Hm H. unfold iter_next in H. rewrite Hm in H. cbn [cast_part] in H.
  destruct (read_process_write E (it_io c) false u None (Some (m ++ it_inext c)) (Some (m ++ it_outext c)))
    as [u1 [l1 r1]] eqn:Ep.
  injection H as <- <- <- <-.
  pose proof (read_process_write_reads _ _ _ _ _ _ _ _ _ Ep) as R. split; [exact R|].
  destruct r1 as [o|e]; [|reflexivity]. split; [lia|].
  apply read_process_write_writes in Ep as [W _]. rewrite W. unfold wrote. destruct o; reflexivity.
Qed.

Lemma skipn_nth : forall A (l : list A) i x, nth_error l i = Some x -> skipn i l = x :: skipn (S i) l.
Proof.
  induction l as [|y l IH]; intros [|i] x H; try discriminate; cbn in *.
  - congruence.
  - now apply IH.
Qed.

(** All the calls succeeded. *)
Lemma iter_calls_reads : input_root (it_io c) <> none_ -> forall n i u st ls,
  iter_calls E c false (i, u) (repeat None n) = (st, ls) -> Forall succeeded ls ->
  i <= length (it_middles c) ->
  length ls = n -> fst st = i + n /\ i + n <= length (it_middles c) /\
  reads (all_effects ls) = map in_name (firstn n (skipn i (it_middles c))).
Proof.
  intros Hr. assert (Es : seqb (input_root (it_io c)) none_ = false).
  { destruct (seqb (input_root (it_io c)) none_) eqn:X; auto. apply seqb_eq in X. contradiction. }
  induction n as [|n IH]; intros i u st ls H F Hi Hl.
  - cbn in H. injection H as <- <-. cbn. repeat split; lia.
  - cbn [repeat iter_calls] in H.
    destruct (iter_next E c false (i, u) None) as [[i' u'] [l r]] eqn:En.
    destruct (nth_error (it_middles c) i) as [m|] eqn:Em.
    + destruct (iter_next_files _ _ _ _ _ _ _ Em En) as [R W].
      destruct r as [o|e].
      * destruct W as [-> W].
        destruct (iter_calls E c false (S i, u') (repeat None n)) as [st' ls'] eqn:Ec. injection H as <- <-.
        inversion F as [|? ? _ F']; subst. cbn in Hl.
        assert (i < length (it_middles c)) by (apply nth_error_Some; congruence).
        destruct (IH (S i) u' st' ls' Ec F') as (A & B & C); [lia|lia|].
        split; [lia|]. split; [lia|]. cbn [all_effects flat_map fst].
        unfold reads in *. rewrite flat_map_app, R. fold (all_effects ls').
        rewrite C, (skipn_nth _ _ _ _ Em). reflexivity.
      * injection H as <- <-. inversion F as [|? ? [v G] _]. discriminate.
    + unfold iter_next in En. rewrite Em, Es in En. cbn [negb] in En. injection En as <- <- <- <-.
      injection H as <- <-. inversion F as [|? ? [v G] _]. discriminate.
Qed.

Lemma iter_calls_writes : input_root (it_io c) <> none_ -> output_root (it_io c) <> none_ -> forall n i u st ls,
  iter_calls E c false (i, u) (repeat None n) = (st, ls) -> Forall succeeded ls ->
  writes (all_effects ls) =
  flat_map (fun p => match snd (snd p) with Ok (Some v) => [(out_name (fst p), v)] | _ => [] end)
    (combine (skipn i (it_middles c)) ls).
Proof.
  intros Hr Ho. assert (Es : seqb (input_root (it_io c)) none_ = false).
  { destruct (seqb (input_root (it_io c)) none_) eqn:X; auto. apply seqb_eq in X. contradiction. }
  assert (Eo : seqb (output_root (it_io c)) none_ = false).
  { destruct (seqb (output_root (it_io c)) none_) eqn:X; auto. apply seqb_eq in X. contradiction. }
  induction n as [|n IH]; intros i u st ls H F.
  - cbn in H. injection H as <- <-. destruct (skipn i (it_middles c)); reflexivity.
  - cbn [repeat iter_calls] in H.
    destruct (iter_next E c false (i, u) None) as [[i' u'] [l r]] eqn:En.
    destruct (nth_error (it_middles c) i) as [m|] eqn:Em.
    + destruct (iter_next_files _ _ _ _ _ _ _ Em En) as [R W].
      destruct r as [o|e].
      * destruct W as [-> W].
        destruct (iter_calls E c false (S i, u') (repeat None n)) as [st' ls'] eqn:Ec. injection H as <- <-.
        inversion F as [|? ? _ F']; subst.
        rewrite (skipn_nth _ _ _ _ Em). cbn [all_effects flat_map combine fst snd].
        unfold writes in *. rewrite flat_map_app, W. fold (all_effects ls').
        rewrite (IH (S i) u' st' ls' Ec F'), Eo. destruct o; reflexivity.
      * injection H as <- <-. inversion F as [|? ? [v G] _]. discriminate.
    + unfold iter_next in En. rewrite Em, Es in En. cbn [negb] in En. injection En as <- <- <- <-.
      injection H as <- <-. inversion F as [|? ? [v G] _]. discriminate.
Qed.

Lemma iter_exhausted : input_root (it_io c) <> none_ -> forall i u x, length (it_middles c) <= i ->
  iter_next E c false (i, u) x = ((i, u), ([], Err PipelineStopIteration)).
Proof.
  intros Hr i u x H. unfold iter_next. rewrite (proj2 (nth_error_None _ _) H).
  destruct (seqb (input_root (it_io c)) none_) eqn:X; [apply seqb_eq in X; contradiction|reflexivity].
Qed.
End F.

(** Nothing but the methods of the subclass fails with [RuntimeError]. *)
Definition no_runtime {V U} (E : env V U) : Prop :=
  (forall u x, snd (e_process E u x) <> Err RuntimeError) /\ (forall f, e_read E f <> Err RuntimeError) /\
  (forall f v, e_write E f v <> Err RuntimeError) /\ (forall v, e_cast E v <> Err RuntimeError) /\
  (forall v, e_truth E v <> Err RuntimeError) /\ (forall d, e_mkdir E d <> Err RuntimeError).

Section N.
Context {V U : Type}.
Variable E : env V U.
Hypothesis NR : no_runtime E.

Lemma write_part_nr : forall c o f, f <> None \/ output_root c = none_ ->
  snd (write_part E c o f) <> Err RuntimeError.
Proof.
  intros c o f Hf. destruct NR as (_ & _ & W & _ & _ & D). unfold write_part.
  destruct o as [v|]; [|discriminate].
  destruct (seqb (output_root c) none_) eqn:Es; cbn [negb]; [discriminate|].
  destruct f as [f|].
  2: { destruct Hf as [Hf|Hf]; [congruence|]. apply seqb_eq in Hf. congruence. }
  cbn zeta. specialize (W (e_expand E (output_root c ++ f)) v).
  specialize (D (dirname (e_expand E (output_root c ++ f)))).
  unfold makedirs.
  destruct (e_isdir E (dirname (e_expand E (output_root c ++ f)))); cbn [negb].
  - destruct (e_write E (e_expand E (output_root c ++ f)) v); cbn in *; congruence.
  - destruct (dirname (e_expand E (output_root c ++ f))) as [|ch r]; [discriminate|].
    destruct (e_mkdir E (ch :: r)); [|cbn in *; congruence].
    destruct (e_write E (e_expand E (output_root c ++ f)) v); cbn in *; congruence.
Qed.
Lemma rpw_nr : forall c noin u x i o, (o <> None \/ output_root c = none_) ->
  (noin = true -> x = None) -> (noin = false -> x <> None \/ i <> None) ->
  snd (snd (read_process_write E c noin u x i o)) <> Err RuntimeError.
Proof.
  intros c noin u x i o Ho H1 H2. unfold read_process_write.
  assert (Pr : forall x0, (noin = true -> x0 = None) ->
    snd (snd (process_part E c noin u x0 o)) <> Err RuntimeError).
  { intros x0 Hx. unfold process_part.
    destruct (noin && match x0 with Some _ => true | None => false end)%bool eqn:Eb.
    { destruct noin; [|discriminate]. rewrite (Hx eq_refl) in Eb. discriminate. }
    pose proof (proj1 NR u (if noin then None else x0)) as A.
    destruct (e_process E u (if noin then None else x0)) as [u1 [y|e]]; cbn [snd] in *.
    - now apply write_part_nr.
    - congruence. }
  destruct x as [v|]; [apply Pr; auto|]. destruct noin; [apply Pr; auto|].
  destruct i as [f|]; [|destruct (H2 eq_refl); congruence]. cbn zeta.
  pose proof (proj1 (proj2 NR) (e_expand E (input_root c ++ f))) as A.
  destruct (e_read E (e_expand E (input_root c ++ f))) as [v|e]; [|cbn in *; congruence].
  specialize (Pr (Some v) ltac:(discriminate)).
  destruct (process_part E c false u (Some v) o) as [u1 [l1 r1]]. exact Pr.
Qed.
Lemma cast_nr : forall x, cast_part E x <> Err RuntimeError.
Proof.
  intros [v|]; [|discriminate]. cbn. destruct NR as (_ & _ & _ & C & T & _).
  specialize (C v). specialize (T v). destruct (e_truth E v) as [[|]|e]; cbn in *; [|discriminate|congruence].
  destruct (e_cast E v); cbn in *; congruence.
Qed.
Lemma cast_none : forall x y, cast_part E x = Ok y -> (y = None <-> x = None).
Proof.
  intros [v|] y H; cbn in H; [|injection H as <-; tauto].
  destruct (e_truth E v) as [[|]|e]; cbn in H; [|injection H as <-; split; discriminate|discriminate].
  destruct (e_cast E v); cbn in H; [injection H as <-; split; discriminate|discriminate].
Qed.
End N.
