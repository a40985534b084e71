(** Proofs about constants with prefixes. *)
From Coq Require Import List Ascii Bool Arith QArith Lia.
From Verif Require Import PyBase PyStr MemModel ConstModel.
Import ListNotations.
Open Scope list_scope.
Open Scope nat_scope.

Definition parts (name : str) : list str := filter (fun w => match w with [] => false | _ => true end) (split underscore name).
Lemma split_cons : forall s, exists w ws, split underscore s = w :: ws.
Proof. induction s as [|x s (w & ws & E)]; cbn [split]; [eauto|]. destruct (ceqb x underscore); [eauto|]. rewrite E. eauto. Qed.
Lemma split_plain : forall w, ~ In underscore w -> split underscore w = [w].
Proof.
  induction w as [|x w IH]; intros H; [reflexivity|]. cbn [split]. destruct (ceqb x underscore) eqn:E; [apply ceqb_eq in E; subst; exfalso; apply H; now left|].
  rewrite IH; [reflexivity|]. intros I. apply H. now right.
Qed.
Lemma split_app : forall w s, ~ In underscore w -> split underscore (w ++ underscore :: s) = w :: split underscore s.
Proof.
  induction w as [|x w IH]; intros s H.
  - cbn [app split]. destruct (ceqb underscore underscore) eqn:E; [reflexivity|]. exfalso. apply not_true_iff_false in E. apply E. now apply ceqb_eq.
  - cbn [app split]. destruct (ceqb x underscore) eqn:E; [apply ceqb_eq in E; subst; exfalso; apply H; now left|]. rewrite IH; [reflexivity|]. intros I. apply H. now right.
Qed.
Lemma split_good : forall s w, In w (split underscore s) -> ~ In underscore w.
Proof.
  induction s as [|x s IH]; intros w; cbn [split]; [intros [<-|[]] []|]. destruct (ceqb x underscore) eqn:E; [intros [<-|H]; [intros []|auto]|].
  destruct (split_cons s) as (v & ws & V). rewrite V in *. intros [<-|H] I; [|apply (IH w); auto; now right].
  destruct I as [X|I]; [|apply (IH v); auto; now left]. apply ceqb_eq in X. congruence.
Qed.
Lemma parts_good : forall s w, In w (parts s) -> ~ In underscore w /\ w <> [].
Proof. intros s w H. apply filter_In in H as [H N]. split; [now apply (split_good s)|]. now destruct w. Qed.
Lemma parts_plain : forall w, ~ In underscore w -> parts w = match w with [] => [] | _ => [w] end.
Proof. intros w H. unfold parts. rewrite split_plain by assumption. destruct w; reflexivity. Qed.
Lemma parts_us : forall s, parts (underscore :: s) = parts s.
Proof. intros s. unfold parts. change (underscore :: s) with ([] ++ underscore :: s). now rewrite split_app by intros []. Qed.
Lemma parts_repeat : forall n s, parts (repeat underscore n ++ s) = parts s.
Proof. induction n as [|n IH]; intros s; [reflexivity|]. cbn [repeat app]. now rewrite parts_us. Qed.
Lemma parts_word : forall w s, ~ In underscore w -> w <> [] -> parts (w ++ underscore :: s) = w :: parts s.
Proof. intros w s H N. unfold parts. rewrite split_app by assumption. cbn [filter]. now destruct w. Qed.
Lemma parts_none : forall s, parts s = [] -> exists n, s = repeat underscore n.
Proof.
  induction s as [|x s IH]; intros H; [now exists 0|]. destruct (ascii_dec x underscore) as [->|N].
  - rewrite parts_us in H. destruct (IH H) as (n & ->). now exists (S n).
  - exfalso. unfold parts in H. cbn [split] in H. destruct (ceqb x underscore) eqn:E; [apply ceqb_eq in E; contradiction|].
    destruct (split_cons s) as (w & ws & V). rewrite V in H. discriminate.
Qed.
Lemma parts_first : forall s w ws, parts s = w :: ws -> exists n t, s = repeat underscore n ++ w ++ t /\ ~ In underscore w /\ w <> [] /\
  ((t = [] /\ ws = []) \/ exists t', t = underscore :: t' /\ parts t' = ws).
Proof.
  induction s as [|x s IH]; intros w ws H; [discriminate|]. destruct (ascii_dec x underscore) as [->|N].
  - rewrite parts_us in H. destruct (IH _ _ H) as (n & t & -> & R). exists (S n), t. split; [reflexivity|exact R].
  - clear IH. exists 0. cbn [repeat app]. revert x N w ws H. induction s as [|y s IH]; intros x N w ws H.
    + rewrite parts_plain in H by (intros [E|[]]; contradiction). injection H as <- <-. exists []. split; [now rewrite app_nil_r|]. split; [intros [E|[]]; contradiction|]. split; [discriminate|]. now left.
    + destruct (ascii_dec y underscore) as [->|M].
      * change (x :: underscore :: s) with ([x] ++ underscore :: s) in H. rewrite parts_word in H; [|intros [E|[]]; contradiction|discriminate].
        injection H as <- <-. exists (underscore :: s). split; [reflexivity|]. split; [intros [E|[]]; contradiction|]. split; [discriminate|]. right. eauto.
      * assert (P : exists w' , parts (y :: s) = w' :: ws /\ w = x :: w').
        { unfold parts in *. assert (X : forall z u, z <> underscore -> split underscore (z :: u) = match split underscore u with [] => [[z]] | v :: vs => (z :: v) :: vs end).
          { intros z u Z. cbn [split]. destruct (ceqb z underscore) eqn:E; [apply ceqb_eq in E; contradiction|reflexivity]. }
          rewrite X in H by assumption. rewrite (X y) in * by assumption. destruct (split underscore s) as [|v vs]; cbn [filter] in *; injection H as <- <-; eauto. }
        destruct P as (w' & P & ->). destruct (IH y M _ _ P) as (t & E & A & B & C). exists t. split; [now rewrite E|]. split; [intros [F|F]; [congruence|contradiction]|]. split; [discriminate|exact C].
Qed.
Lemma parts_two : forall s p u, parts s = [p; u] <-> exists a b c, s = repeat underscore a ++ p ++ repeat underscore (S b) ++ u ++ repeat underscore c /\
  ~ In underscore p /\ ~ In underscore u /\ p <> [] /\ u <> [].
Proof.
  intros s p u. split.
  - intros H. apply parts_first in H as (a & t & -> & A & B & [[_ C]|(t' & -> & C)]); [discriminate|].
    apply parts_first in C as (b & t & -> & D & E & [[-> _]|(t'' & -> & F)]).
    + exists a, b, 0. cbn [repeat]. rewrite !app_nil_r. auto.
    + apply parts_none in F as (c & ->). exists a, b, (S c). auto.
  - intros (a & b & c & -> & A & B & C & D). rewrite parts_repeat. cbn [repeat app]. rewrite parts_word, parts_repeat by assumption. f_equal. destruct c as [|c].
    + cbn [repeat]. rewrite app_nil_r, parts_plain by assumption. now destruct u.
    + cbn [repeat]. rewrite parts_word by assumption. f_equal. rewrite <- (app_nil_r (repeat underscore c)). rewrite parts_repeat. reflexivity.
Qed.
Lemma getattr_step : forall n g al name, dget name g = None -> dget name al = None ->
  cgetattr (S n) g al name = match parts name with
    | [a; b] => rbind (cgetattr n g al a) (fun x => rbind (cgetattr n g al b) (fun y => cmul x y))
    | _ => Err AttributeError end.
Proof.
  intros n g al name A B. cbn [cgetattr]. rewrite A, B. unfold split_prefix. fold (parts name).
  destruct (parts name) as [|x [|y [|z l]]]; reflexivity.
Qed.
Lemma getattr_word : forall n g al w, ~ In underscore w -> cgetattr (S n) g al w = match dget w g with Some v => Ok v | None => match dget w al with Some v => Ok v | None => Err AttributeError end end.
Proof.
  intros n g al w H. destruct (dget w g) as [v|] eqn:A; [cbn [cgetattr]; now rewrite A|]. destruct (dget w al) as [v|] eqn:B; [cbn [cgetattr]; now rewrite A, B|].
  rewrite getattr_step by assumption. rewrite parts_plain by assumption. now destruct w.
Qed.
