(** C59-C61: conversions of strings. *)
From Coq Require Import String.
From Coq Require Import List Ascii Bool Arith Lia.
From Verif Require Import PyBase PyStr TypModel TypSpec TypProofs TypProofs2.
Import ListNotations.
Open Scope list_scope.
Open Scope nat_scope.

(** * C59 *)
(** No byte string is left anywhere, at any depth. *)
Theorem C59_none_left : forall decode o r, b2u decode o = Ok r -> no_bytes r.
Proof. exact none_left. Qed.
Print Assumptions C59_none_left.

(** Converting twice is converting once. *)
Theorem C59_idempotent : forall decode o r, b2u decode o = Ok r -> b2u decode r = Ok r.
Proof. exact idempotent. Qed.
Print Assumptions C59_idempotent.

(** The result is the argument with the byte strings turned into text and nothing else changed. *)
Theorem C59_converted : forall decode o r, no_named o -> b2u decode o = Ok r -> converted decode o r.
Proof. exact b2u_converted. Qed.
Print Assumptions C59_converted.

(** It succeeds whenever everything can be decoded. *)
Theorem C59_total : forall decode o, no_named o -> decodable decode o -> exists r, b2u decode o = Ok r.
Proof. exact b2u_total. Qed.
Print Assumptions C59_total.

(** A value without byte strings is returned as it is. *)
Theorem C59_unchanged : forall decode o, no_named o -> proper_obj o -> no_bytes o -> b2u decode o = Ok o.
Proof. exact unchanged. Qed.
Print Assumptions C59_unchanged.

(** Elements of arrays are text with the same codes, if these are ASCII .. *)
Theorem C59_arrays : forall decode l ts,
  b2u decode (OArrS l) = Ok (OArrU ts) <-> ts = map (map nat_of_ascii) l /\ forall b c, In b l -> In c b -> nat_of_ascii c < 128.
Proof.
  intros decode l ts. cbn [b2u]. assert (K : forall r, astype_str l = Ok r <-> r = map (map nat_of_ascii) l /\ forall b c, In b l -> In c b -> nat_of_ascii c < 128).
  { induction l as [|b l IH]; intros r; cbn [astype_str map]; [split; [intros H; injection H as <-; split; [reflexivity|intros b c []]|intros [-> _]; reflexivity]|].
    unfold ascii_text. destruct (forallb _ b) eqn:E.
    - rewrite forallb_forall in E. destruct (astype_str l) as [r'|] eqn:E'; cbn [rbind].
      + destruct (proj1 (IH r') eq_refl) as [-> A]. split.
        * intros H. injection H as <-. split; [reflexivity|]. intros b' c [<-|Hb] Hc; [apply Nat.ltb_lt; now apply E|eauto].
        * intros [-> _]. reflexivity.
      + split; [discriminate|]. intros [-> A]. exfalso. assert (X : Err e = Ok (map (map nat_of_ascii) l)); [|discriminate X]. apply IH. split; [reflexivity|]. intros b' c Hb. apply A. now right.
    - split; [discriminate|]. intros [_ A]. exfalso. apply not_true_iff_false in E. apply E. apply forallb_forall. intros c Hc. apply Nat.ltb_lt. apply (A b); auto. now left. }
  destruct (astype_str l) as [r|e] eqn:E; cbn [rbind].
  - rewrite <- K. split; intros H; injection H as ->; reflexivity.
  - rewrite <- K. split; discriminate.
Qed.
Print Assumptions C59_arrays.
(** .. but otherwise there is an error even where a single byte string would have
    been decoded. *)
Theorem C59_arrays_refuted : exists decode b r, b2u decode (OBytes b) = Ok r /\ b2u decode (OArrS [b]) = Err ValueError.
Proof.
  exists (fun b => if list_eq_dec ascii_dec b [ascii_of_nat 195; ascii_of_nat 169] then Some [233] else None), [ascii_of_nat 195; ascii_of_nat 169], (OStr [233]).
  split; reflexivity.
Qed.
Print Assumptions C59_arrays_refuted.

Example C59_ex :
  b2u ascii_text (OList [OBytes (s_ "a"); ODict [(OBytes (s_ "k"), OTuple [OOther 1; OBytes (s_ "b")]); (OStr [120], OSet [OBytes (s_ "c"); OBytes (s_ "d")])];
                         OArrS [s_ "xy"]])
  = Ok (OList [OStr [97]; ODict [(OStr [107], OTuple [OOther 1; OStr [98]]); (OStr [120], OSet [OStr [99]; OStr [100]])]; OArrU [[120; 121]]]).
Proof. reflexivity. Qed.

(** "Changes nothing else" fails of dictionaries with a byte string and the
    equal text as keys: one of the two entries is lost. *)
Definition clash : list (pyo * pyo) := [(OBytes (s_ "a"), OOther 1); (OStr [97], OOther 2)].
Ltac inner := repeat match goal with
  | H : In _ _ |- _ => progress cbn in H
  | H : _ \/ _ |- _ => destruct H as [H|H]
  | H : False |- _ => destruct H
  | H : (_, _) = (_, _) |- _ => injection H; intros; subst; clear H
  | H : _ = _ |- _ => first [discriminate H | progress subst]
  | H : inside _ _ |- _ => inversion H; subst; clear H
  end.
Theorem C59_key_clash_refuted : exists l m, no_named (ODict l) /\ proper_obj (ODict l) /\
  b2u ascii_text (ODict l) = Ok (ODict m) /\ length m < length l.
Proof.
  exists clash, [(OStr [97], OOther 2)]. unfold clash. split; [|split; [|split]].
  - intros x l Hx E. subst x. inner.
  - split; intros l Hl.
    + inner.
    + inversion Hl; subst; [|inner|inner]. cbn. constructor; [intros [H|[]]; discriminate|].
      constructor; [intros []|constructor].
  - reflexivity.
  - cbn. lia.
Qed.
Print Assumptions C59_key_clash_refuted.

(** A named tuple, which is a tuple, cannot be converted: it is built from one
    generator instead of from its fields. *)
Theorem C59_namedtuple_refuted : exists o, decodable ascii_text o /\ proper_obj o /\ b2u ascii_text o = Err TypeError.
Proof.
  exists (ONamed [OBytes (s_ "a"); OOther 1]). split; [split|split; [split|]].
  - intros b Hb. inner. discriminate.
  - intros l b Hl. inner.
  - intros l Hl. inner.
  - intros l Hl. inner.
  - reflexivity.
Qed.
Print Assumptions C59_namedtuple_refuted.

(** One with a single field comes back holding a generator. *)
Theorem C59_namedtuple_generator_refuted : exists o, no_bytes o /\ b2u ascii_text o = Ok (ONamed [OGen]) /\ o <> ONamed [OGen].
Proof.
  exists (ONamed [OOther 1]). split; [|split; [reflexivity|discriminate]].
  intros x Hx [[b E]|[l E]]; subst; inner.
Qed.
Print Assumptions C59_namedtuple_generator_refuted.

(** * C60 *)
(** Full statement: for every data type, the result of [dtype_to_unicode] is the
    type with every leaf of kind S turned into one of kind U of the same length
    and all names, nesting, shapes and other leaves as before.  Shown for types
    without shapes and padding; with them it is false (below). *)
Theorem C60_to_unicode_partial : forall t, plain t -> (forall s, In s (leaves t) -> type_string s) ->
  dtype_to_unicode t = map_leaves s2u t.
Proof.
  intros t P T. unfold dtype_to_unicode. rewrite convert_top by auto. apply map_leaves_ext.
  intros s Hs. apply conv_s2u. auto.
Qed.
Print Assumptions C60_to_unicode_partial.

Theorem C60_to_bytestring_partial : forall t, plain t -> (forall s, In s (leaves t) -> type_string s) ->
  dtype_to_bytestring t = map_leaves u2s t.
Proof.
  intros t P T. unfold dtype_to_bytestring. rewrite convert_top by auto. apply map_leaves_ext.
  intros s Hs. apply conv_u2s. auto.
Qed.
Print Assumptions C60_to_bytestring_partial.

(** Each undoes the other on types with only one of the two kinds. *)
Theorem C60_roundtrip_unicode_partial : forall t, plain t -> (forall s, In s (leaves t) -> type_string s) ->
  (forall s, In s (leaves t) -> kind_of s <> Some "U"%char) -> dtype_to_bytestring (dtype_to_unicode t) = t.
Proof.
  intros t P T K. rewrite C60_to_unicode_partial by auto. rewrite C60_to_bytestring_partial.
  - rewrite map_leaves_comp. rewrite (map_leaves_ext _ (fun s => s)), map_leaves_id; [reflexivity|].
    intros s Hs. apply u2s_s2u. auto.
  - now apply plain_map.
  - rewrite leaves_map. intros s Hs. apply in_map_iff in Hs as (s' & <- & Hs). apply s2u_type_string. auto.
Qed.
Print Assumptions C60_roundtrip_unicode_partial.

Theorem C60_roundtrip_bytestring_partial : forall t, plain t -> (forall s, In s (leaves t) -> type_string s) ->
  (forall s, In s (leaves t) -> kind_of s <> Some "S"%char) -> dtype_to_unicode (dtype_to_bytestring t) = t.
Proof.
  intros t P T K. rewrite C60_to_bytestring_partial by auto. rewrite C60_to_unicode_partial.
  - rewrite map_leaves_comp. rewrite (map_leaves_ext _ (fun s => s)), map_leaves_id; [reflexivity|].
    intros s Hs. apply s2u_u2s. auto.
  - now apply plain_map.
  - rewrite leaves_map. intros s Hs. apply in_map_iff in Hs as (s' & <- & Hs). apply u2s_type_string. auto.
Qed.
Print Assumptions C60_roundtrip_bytestring_partial.

Definition dt_ex : dtype :=
  Comp [Field (s_ "name") (Leaf (s_ "|S16") false) []; Field (s_ "pos") (Comp [Field (s_ "x") (Leaf (s_ "<f8") false) [];
        Field (s_ "unit") (Leaf (s_ "|S4") false) []]) []].
Example C60_ex : dtype_to_unicode dt_ex =
  Comp [Field (s_ "name") (Leaf (s_ "<U16") false) []; Field (s_ "pos") (Comp [Field (s_ "x") (Leaf (s_ "<f8") false) [];
        Field (s_ "unit") (Leaf (s_ "<U4") false) []]) []] /\
  dtype_to_bytestring (dtype_to_unicode dt_ex) = dt_ex /\ plain dt_ex.
Proof. repeat split; try reflexivity; discriminate. Qed.

(** The shape of a field is lost. *)
Theorem C60_shape_refuted : exists t, (forall s, In s (leaves t) -> type_string s) /\
  dtype_to_unicode t <> map_leaves s2u t /\
  dtype_to_unicode t = Comp [Field (s_ "a") (Leaf (s_ "<U5") false) []].
Proof.
  exists (Comp [Field (s_ "a") (Leaf (s_ "|S5") false) [2; 3]]). split; [|split; [discriminate|reflexivity]].
  intros s [<-|[]]. exists "|"%char, "S"%char, (s_ "5"). split; [reflexivity|].
  split; intros [H|[H|[]]]; discriminate.
Qed.
Print Assumptions C60_shape_refuted.

(** Padding between fields becomes a field of its own. *)
Theorem C60_padding_refuted : exists t, (forall s, In s (leaves t) -> type_string s) /\
  leaves (dtype_to_unicode t) <> map s2u (leaves t) /\
  dtype_to_unicode t = Comp [Field (s_ "a") (Leaf (s_ "|i1") false) []; Field (s_ "f1") (Leaf (s_ "|V3") false) [];
                             Field (s_ "b") (Leaf (s_ "<i4") false) []].
Proof.
  exists (Comp [Field (s_ "a") (Leaf (s_ "|i1") false) []; Gap (s_ "3"); Field (s_ "b") (Leaf (s_ "<i4") false) []]).
  split; [|split; [discriminate|reflexivity]].
  intros s [<-|[<-|[]]]; [exists "|"%char, "i"%char, (s_ "1")|exists "<"%char, "i"%char, (s_ "4")];
    (split; [reflexivity|]); split; intros [H|[H|[]]]; discriminate.
Qed.
Print Assumptions C60_padding_refuted.

(** Text in the other byte order is left as it is. *)
Theorem C60_byte_order_refuted : exists t, plain t /\ In (Some "U"%char) (map kind_of (leaves t)) /\ dtype_to_bytestring t = t.
Proof.
  exists (Comp [Field (s_ "a") (Leaf (s_ ">U5") false) []]). split; [|split; [now left|reflexivity]].
  repeat split; discriminate.
Qed.
Print Assumptions C60_byte_order_refuted.

(** * C61 *)
(** Whatever is returned is right (the kind V is also that of padding, and is left out). *)
Theorem C61_sound : forall t kind b, kind <> "V"%char -> has_kind t kind = Ok b ->
  (b = true <-> exists s, In s (leaves t) /\ kind_of s = Some kind).
Proof.
  intros t kind b HV H.
  assert (E : b = kinds_of kind t).
  { destruct t as [s m|[|i l]]; cbn [has_kind] in H.
    - apply (kind_sound kind HV). cbn. destruct m; exact H.
    - injection H as <-. apply ceqb_neq. congruence.
    - apply (kind_sound kind HV). exact H. }
  subst b. unfold kinds_of. rewrite existsb_exists. split; intros (s & Hs & K); exists s; (split; [auto|]).
  - destruct (kind_of s); [|discriminate]. apply ceqb_eq in K. now subst.
  - rewrite K. now apply ceqb_eq.
Qed.
Print Assumptions C61_sound.

(** Full statement: it never raises.  Shown when every compound type inside
    another one has two entries or more; with a single one it is false (below). *)
Theorem C61_never_raises_partial : forall t kind, wide t -> (forall s, In s (leaves t) -> type_string s) ->
  exists b, has_kind t kind = Ok b.
Proof.
  intros [s m|[|i l]] kind W T; cbn [has_kind].
  - destruct (T s) as (o & k & r & -> & _); [now left|]. eexists; reflexivity.
  - eexists; reflexivity.
  - now apply kind_total.
Qed.
Print Assumptions C61_never_raises_partial.

Example C61_ex : has_kind dt_ex "S"%char = Ok true /\ has_kind dt_ex "f"%char = Ok true /\ has_kind dt_ex "U"%char = Ok false /\ wide dt_ex.
Proof. repeat split; cbn; lia. Qed.

(** A compound field with a single field makes the search raise. *)
Theorem C61_single_field_refuted : exists t kind, plain t /\ (forall s, In s (leaves t) -> type_string s) /\ has_kind t kind = Err IndexError.
Proof.
  exists (Comp [Field (s_ "a") (Comp [Field (s_ "b") (Leaf (s_ "<f8") false) []]) []]), "S"%char.
  split; [|split; [|reflexivity]].
  - repeat split; discriminate.
  - intros s [<-|[]]. exists "<"%char, "f"%char, (s_ "8"). split; [reflexivity|].
    split; intros [H|[H|[]]]; discriminate.
Qed.
Print Assumptions C61_single_field_refuted.
