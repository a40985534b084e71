(** C30, C31, C83: attributes copied into files and back. *)
From Coq Require Import String.
From Coq Require Import List Ascii Bool Arith ZArith Lia.
From Verif Require Import PyBase PyStr MemModel JsonModel JsonSpec JsonProofs AttrModel AttrSpec AttrProofs.
Import ListNotations.
Open Scope list_scope.
Open Scope nat_scope.

(** C30.  The JSON text of a value is read back as that value. *)
Theorem C30_json_roundtrip : forall v, jsonlike v -> exists s, enc v = Ok s /\ loads s = Ok v.
Proof.
  intros v J. destruct (jsonlike_ok v J) as (W & HP & s & HE). exists s. split; [assumption|].
  rewrite (loads_enc v s W HE). now rewrite HP.
Qed.
Print Assumptions C30_json_roundtrip.

(** Byte strings and dates come back as strings, arrays as lists, and nothing
    that can be written fails to be read. *)
Theorem C30_json_plain : forall v s, wf v -> enc v = Ok s -> loads s = Ok (plain v).
Proof. exact JsonProofs.loads_enc. Qed.
Print Assumptions C30_json_plain.

(** Through zarr attributes every JSON-like attribute comes back unchanged. *)
Theorem C30_zarr : forall a, (forall k v, dget k a = Some v -> jsonlike v /\ untagged v) ->
  exists f b, copyattrs a Zarr true [] = Ok f /\ copyattrs f Mem true [] = Ok b /\ forall k, dget k b = dget k a.
Proof.
  intros a H.
  destruct (roundtrip Zarr zarr_form (fun v => v) (fun v => jsonlike v /\ untagged v) a) as (f & b & Hf & Hb & Hk).
  - intros v [J U]. now apply zarr_out.
  - intros v [J U]. now apply zarr_in.
  - exact H.
  - exists f, b. split; [assumption|]. split; [assumption|]. intro k. rewrite Hk. now destruct (dget k a).
Qed.
Print Assumptions C30_zarr.

(** Through HDF5 attributes the values of [h5_value] come back, lists as
    arrays.  Missing for the full statement: None, nested and mixed lists, large
    integers. *)
Theorem C30_h5_partial : forall a, (forall k v, dget k a = Some v -> h5_value v) ->
  exists f b, copyattrs a H5 true [] = Ok f /\ copyattrs f Mem true [] = Ok b /\
  forall k, dget k b = option_map h5_back (dget k a).
Proof. intros a H. exact (roundtrip H5 h5_form h5_back h5_value a h5_out h5_in H). Qed.
Print Assumptions C30_h5_partial.

(** Other attributes of the target stay. *)
Theorem C30_others_stay : forall a1 t c a2 f b, (forall k v, dget k a1 = Some v -> copy_value c t v = Ok (f v)) ->
  copyattrs a1 t c a2 = Ok b -> forall k, dget k a1 = None -> dget k b = dget k a2.
Proof.
  intros a1 t c a2 f b H E k Hk. destruct (copyattrs_ok a1 t c a2 f H) as (b' & E' & Kb).
  rewrite E in E'. injection E' as <-. now rewrite Kb, Hk.
Qed.
Print Assumptions C30_others_stay.

(** False of HDF5 in full: a list of a number and a string comes back as two
    strings, and None cannot be saved. *)
Theorem C30_h5_mixed_list_refuted : exists v f b, jsonlike v /\ untagged v /\
  copyattrs [(s_ "a", v)] H5 true [] = Ok f /\ copyattrs f Mem true [] = Ok b /\
  dget (s_ "a") b = Some (AArr [AStr (s_ "1"); AStr (s_ "x")]) /\ v = AList [AInt 1; AStr (s_ "x")].
Proof.
  exists (AList [AInt 1; AStr (s_ "x")]). eexists. eexists. split; [cbn; tauto|]. split; [exact I|].
  split; [vm_compute; reflexivity|]. split; [vm_compute; reflexivity|]. split; reflexivity.
Qed.
Print Assumptions C30_h5_mixed_list_refuted.
Theorem C30_h5_none_refuted : exists v, jsonlike v /\ untagged v /\
  copyattrs [(s_ "a", v)] H5 true [] = Err TypeError.
Proof. exists ANone. split; [exact I|]. split; [exact I|]. reflexivity. Qed.
Print Assumptions C30_h5_none_refuted.

Definition ex_attrs : list (str * av) :=
  [(s_ "name", AStr (s_ "a ""quoted"" word")); (s_ "count", AInt (-12));
   (s_ "conf", ADict [(s_ "x", AList [AFloat (s_ "1.5e-07"); ANone; ABool true]); (s_ "y", ADict [])])].
Example C30_example :
  copyattrs ex_attrs Zarr true [] =
    Ok [(s_ "conf", AStr (s_ "!!_memh5_json:{""x"": [1.5e-07, null, true], ""y"": {}}"));
        (s_ "count", AInt (-12)); (s_ "name", AStr (s_ "a ""quoted"" word"))]
  /\ rbind (copyattrs ex_attrs H5 true []) (fun f => copyattrs f Mem true []) =
     Ok [(s_ "conf", ADict [(s_ "x", AList [AFloat (s_ "1.5e-07"); ANone; ABool true]); (s_ "y", ADict [])]);
         (s_ "count", AInt (-12)); (s_ "name", AStr (s_ "a ""quoted"" word"))].
Proof. split; vm_compute; reflexivity. Qed.

(** C31.  False: a string starting with the tag is decoded, and if what follows
    is no JSON nothing is copied at all. *)
Theorem C31_decoded_refuted : exists s f b, copyattrs [(s_ "a", AStr s)] Mem true [] = Ok b /\
  dget (s_ "a") b = Some f /\ f <> AStr s.
Proof.
  exists (s_ "!!_memh5_json:[1]"). eexists. eexists. split; [vm_compute; reflexivity|]. split; [reflexivity|discriminate].
Qed.
Print Assumptions C31_decoded_refuted.
Theorem C31_fails_refuted : exists s, copyattrs [(s_ "a", AStr s)] Mem true [] = Err ValueError.
Proof. exists (s_ "!!_memh5_json:"). vm_compute. reflexivity. Qed.
Print Assumptions C31_fails_refuted.
(** Any tagged string is affected: copying it, in whatever direction, never
    stores the string itself unless its JSON happens to decode to it. *)
Theorem C31_tagged : forall c t s r, s = s_ "!!_memh5_json:" ++ r ->
  copy_value c t (AStr s) = rbind (loads r) (fun v => set t (item v)).
Proof.
  intros c t s r ->. unfold copy_value, map_unicode. change (s_ "!!_memh5_json:") with json_prefix.
  destruct (tag_decode r) as [E1 E2].
  destruct c, t; cbn [negb rbind bytes_to_unicode map_json]; rewrite E1, E2; reflexivity.
Qed.
Print Assumptions C31_tagged.
(** Strings that do not start with the tag are returned unchanged. *)
Theorem C31_untagged_partial : forall c t s, ~ tagged s -> (t = H5 -> h5_text s) -> copy_value c t (AStr s) = Ok (AStr s).
Proof.
  intros c t s H1 H2. unfold copy_value, map_unicode.
  destruct c, t; cbn [negb rbind bytes_to_unicode map_json item]; rewrite (untagged_false s H1); cbn [rbind item set h5_set json_std]; try reflexivity;
    rewrite (proj1 (no_nul_text s) (H2 eq_refl)); reflexivity.
Qed.
Print Assumptions C31_untagged_partial.
Example C31_example : copy_value true Mem (AStr (s_ "!!_memh5_jso")) = Ok (AStr (s_ "!!_memh5_jso"))
  /\ copy_value true Mem (AStr (s_ "!!_memh5_json:""a""")) = Ok (AStr (s_ "a"))
  /\ copy_value true Zarr (AStr (s_ "!!_memh5_json:{bad")) = Err ValueError.
Proof. repeat split; vm_compute; reflexivity. Qed.

(** C83.  A numpy number inside a dictionary cannot be written. *)
Theorem C83_numpy_number_refuted : exists kv, copyattrs [(s_ "a", ADict kv)] H5 true [] = Err TypeError
  /\ copyattrs [(s_ "a", ADict kv)] Zarr true [] = Err TypeError.
Proof. exists [(s_ "n", ANpInt 3)]. split; reflexivity. Qed.
Print Assumptions C83_numpy_number_refuted.
(** Exactly the values with a numpy number in them, or with bytes that are no
    ASCII, cannot be written. *)
Theorem C83_writable : forall v, (exists s, enc v = Ok s) <-> encodable v.
Proof. exact AttrProofs.encodable_iff. Qed.
Print Assumptions C83_writable.
Example C83_example : enc (ADict [(s_ "n", AArr [ABytes (s_ "ab"); ADate (s_ "2020-01-01T00:00:00")])])
  = Ok (s_ "{""n"": [""ab"", ""2020-01-01T00:00:00""]}")
  /\ encodable (AList [AArr [ABytes (s_ "ab")]]) /\ ~ encodable (AList [ANone; AArr [ANpInt 1]]).
Proof.
  split; [vm_compute; reflexivity|]. split; [cbn; repeat constructor|]. cbn. intuition.
Qed.

(** Every character outside the printable ones is escaped, DEL too. *)
Example C30_escape_example : qchar (ascii_of_nat 127) = s_ "\u007f" /\ qchar (ascii_of_nat 126) = s_ "~" /\ qchar (ascii_of_nat 1) = s_ "\u0001".
Proof. repeat split; reflexivity. Qed.
