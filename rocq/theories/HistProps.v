(** C37: the history of a container. *)
From Coq Require Import List Bool Arith Lia.
From Verif Require Import PyBase HistModel HistSpec HistProofs.
Import ListNotations.
Open Scope list_scope.
Open Scope nat_scope.

(** After any calls on a new container the order lists the accepted names, in
    order, and every name has the last record given for it. *)
Theorem C37_history : forall printable (R : Type) (empty : R) calls, Forall (fun c => valid_text (fst c)) calls ->
  exists h, history (add_all printable empty calls new_history) = Ok h /\
    tget [111; 114; 100; 101; 114] h = Some (HOrder (map fst (accepted calls))) /\
    (forall name r, In name (map fst (accepted calls)) -> last_record name calls = Some r ->
       tget name h = Some (HRec (match r with Some r => r | None => empty end))).
Proof.
  intros printable R empty calls V.
  destruct (all_ok printable empty calls new_history [] new_ok V) as (A & _ & B).
  destruct (history_ok _ _ A) as (h & E & O & G). exists h. split; [exact E|]. split; [exact O|].
  intros name r Hin Hr. assert (N : name <> order_key).
  { intros ->. apply in_map_iff in Hin as ([k x] & Ek & Hin). cbn in Ek. subst k. unfold accepted in Hin.
    apply filter_In in Hin as [_ Hin]. cbn [fst] in Hin. change [111; 114; 100; 101; 114] with order_key in Hin.
    destruct (list_eq_dec Nat.eq_dec order_key order_key); [discriminate|congruence]. }
  apply G; auto. rewrite B by auto. now rewrite Hr.
Qed.
Print Assumptions C37_history.

(** No other names turn up. *)
Theorem C37_only : forall printable (R : Type) (empty : R) calls name, Forall (fun c => valid_text (fst c)) calls ->
  last_record name calls = None -> name <> [111; 114; 100; 101; 114] ->
  tget name (h_attrs (add_all printable empty calls new_history)) = None.
Proof.
  intros printable R empty calls name V L N.
  destruct (all_ok printable empty calls new_history [] new_ok V) as (_ & _ & B). rewrite B by exact N. rewrite L.
  cbn. now rewrite teqb_neq.
Qed.
Print Assumptions C37_only.

(** The same on a container that already has a history. *)
Theorem C37_continued : forall printable (R : Type) (empty : R) calls g s order, NoDup (map fst (h_attrs g)) ->
  tget [111; 114; 100; 101; 114] (h_attrs g) = Some (HText s) -> literal_eval s = Ok order -> Forall valid_text order ->
  Forall (fun c => valid_text (fst c)) calls ->
  exists h, history (add_all printable empty calls g) = Ok h /\
    tget [111; 114; 100; 101; 114] h = Some (HOrder (order ++ map fst (accepted calls))) /\
    (forall name v, name <> [111; 114; 100; 101; 114] -> last_record name calls = None -> tget name (h_attrs g) = Some v -> tget name h = Some v).
Proof.
  intros printable R empty calls g s order N E L V Vc.
  assert (H : hist_ok g order) by (split; [exact N|split; [exists s; auto|exact V]]).
  destruct (all_ok printable empty calls g order H Vc) as (A & _ & B).
  destruct (history_ok _ _ A) as (h & Eh & O & G). exists h. split; [exact Eh|]. split; [exact O|].
  intros name v Hn Hl Hv. apply G; auto. rewrite B by auto. now rewrite Hl.
Qed.
Print Assumptions C37_continued.

(** The reserved name is rejected; an error leaves no trace. *)
Theorem C37_reserved : forall printable (R : Type) (empty : R) rec g,
  add_history printable empty [111; 114; 100; 101; 114] rec g = Err ValueError /\
  add_all printable empty [([111; 114; 100; 101; 114], rec)] g = g.
Proof. intros. split; reflexivity. Qed.
Print Assumptions C37_reserved.

(** Any list of names survives being written as text and read again. *)
Theorem C37_order_text : forall printable l, Forall valid_text l -> literal_eval (str_list printable l) = Ok l.
Proof. exact roundtrip. Qed.
Print Assumptions C37_order_text.
(** Text with null characters is never read. *)
Theorem C37_null : forall s, In 0 s -> literal_eval s = Err ValueError.
Proof. intros s I. unfold literal_eval. replace (existsb (Nat.eqb 0) s) with true; [reflexivity|]. symmetry. apply existsb_exists. exists 0. auto. Qed.
Print Assumptions C37_null.
(** A line ends a literal: one that runs over the end of its line is refused. *)
Theorem C37_line : forall q c s, c = 10 \/ c = 13 -> q = 39 \/ q = 34 -> literal_eval (91 :: q :: c :: s) = Err ValueError.
Proof.
  intros q c s C Q. unfold literal_eval. destruct (existsb (Nat.eqb 0) (91 :: q :: c :: s)); [reflexivity|]. destruct C as [-> | ->], Q as [-> | ->]; reflexivity.
Qed.
Print Assumptions C37_line.

(** Names with one or both kinds of quotes, a backslash, a newline, an accented letter, a character that is not printable. *)
Example C37_ex : let names := [[105; 116; 39; 115]; [97; 34; 98; 39; 99]; [92; 10; 233; 160]; [105; 116; 39; 115]] in
  str_list (fun c => c =? 233) names =
    [91; 34; 105; 116; 39; 115; 34; 44; 32; 39; 97; 34; 98; 92; 39; 99; 39; 44; 32; 39; 92; 92; 92; 110; 233; 92; 120; 97; 48; 39;
     44; 32; 34; 105; 116; 39; 115; 34; 93] /\
  history (add_all (fun c => c =? 233) 0 (combine names [Some 1; None; Some 3; Some 4]) new_history) =
    Ok [(order_key, HOrder names); ([105; 116; 39; 115], HRec 4); ([97; 34; 98; 39; 99], HRec 0); ([92; 10; 233; 160], HRec 3)].
Proof. split; reflexivity. Qed.
