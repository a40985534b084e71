(** C102: which of several outputs are written, and under which names. *)
From Coq Require Import String.
From Coq Require Import List Ascii Bool Arith ZArith Lia.
From Verif Require Import PyBase PyStr MemModel MemProofs2 AttrModel AttrProofs CopyProofs ContProofs GlobModel FlowProofs CtaskModel CtaskSpec CtaskProofs CtaskProps.
Import ListNotations.
Open Scope list_scope.
Open Scope nat_scope.

(** With a list of flags and a list of names, each output follows its own. *)
Theorem C102_each_partial : forall show_any cfg count c ii r flags names,
  t_save cfg = inr flags -> t_name cfg = inr names -> t_nan_check cfg = false ->
  process_output show_any cfg count (Cont c) ii = Ok r ->
  exists c' b, fst r = Some c' /\ nth_error flags ii = Some b /\
    (b = false -> snd r = []) /\
    (b = true -> exists f d name, nth_error names ii = Some f /\ format show_any f d = Ok name /\ snd r = [name]).
Proof.
  intros show_any cfg count c ii r flags names Sv Nm Nc H. cbn [process_output] in H.
  destruct (idict cfg count c ii) as [d|]; [|discriminate]. cbn [rbind] in H.
  destruct (set_attrs show_any (attrs_to_set cfg) d c) as [c1|]; [|discriminate]. cbn [rbind] in H.
  rewrite Nc in H. cbn [andb List.app] in H. unfold save_file in H. rewrite Sv, Nm in H.
  destruct (nth_error flags ii) as [b|]; [|discriminate]. cbn [rbind] in H. destruct b.
  - destruct (idict cfg count c1 ii) as [d1|]; [|discriminate]. cbn [rbind] in H.
    destruct (nth_error names ii) as [f|] eqn:EN; [|discriminate]. cbn [rbind] in H.
    destruct (format show_any f d1) as [name|] eqn:EF; [|discriminate]. cbn [rbind] in H. injection H as <-.
    exists c1, true. repeat split; [discriminate|]. intros _. exists f, d1, name. auto.
  - cbn [rbind] in H. injection H as <-. exists c1, false. repeat split. discriminate.
Qed.
Print Assumptions C102_each_partial.
Example C102_each_example :
  process_output (fun _ => []) (mkconfig (s_ "T") [Lit (s_ "x")] [] (inr [true; false; true]) (inr [[Lit (s_ "a")]; [Lit (s_ "b")]; [Lit (s_ "c")]]) [] false false false []) 7
    (Cont c0) 2 = Ok (Some (mkcont [(s_ "tag", VText (s_ "x"))] (Grp [DNum [Finite]]) []), [s_ "c"]) /\
  option_map snd (match process_output (fun _ => []) (mkconfig (s_ "T") [Lit (s_ "x")] [] (inr [true; false; true]) (inr [[Lit (s_ "a")]; [Lit (s_ "b")]; [Lit (s_ "c")]]) [] false false false []) 7
    (Cont c0) 1 with Ok r => Some r | Err _ => None end) = Some [].
Proof. split; reflexivity. Qed.
