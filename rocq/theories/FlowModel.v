(** Tasks that group, load and select inputs.
    /repo/caput/pipeline/tasklib/flow.py: [AccumulateList] (9-73);
    /repo/caput/pipeline/tasklib/io.py: [LoadFilesFromParams] (376-422),
    [LoadFilesAndSelect] (463-537), [LoadFilesFromPathAndTag] (540-573),
    [Save] (598-634).

    Items and containers are of any type.  Reading a file is a parameter [load].
    Left out: messages, garbage collection, selections (see [Sel]). *)
From Coq Require Import String.
From Coq Require Import List Ascii Bool Arith ZArith.
From Verif Require Import PyBase PyStr MemModel AttrModel GlobModel.
Import ListNotations.
Open Scope list_scope.
Open Scope nat_scope.

Section Accumulate.
Context {A : Type}.
(** [AccumulateList.next], lines 29-54: output and new [_items]. *)
Definition acc_next (group_size : option Z) (items : list A) (x : A) : option (list A) * list A :=
  let items := items ++ [x] in
  match group_size with
  | Some k => if (Z.leb k (Z.of_nat (length items))) then (Some items, []) else (None, items)
  | None => (None, items)
  end.
(** The outputs of a sequence of calls. *)
Fixpoint acc_run (group_size : option Z) (items : list A) (inputs : list A) : list (option (list A)) * list A :=
  match inputs with
  | [] => ([], items)
  | x :: rest =>
      let '(o, items) := acc_next group_size items x in
      let '(os, items) := acc_run group_size items rest in (o :: os, items)
  end.
(** [AccumulateList.finish], lines 56-73 *)
Definition acc_finish (group_size : option Z) (items : list A) : option (list A) :=
  match group_size with None => Some items | Some _ => None end.
End Accumulate.

Section Load.
Context {C : Type}.
Variable load : str -> res C.
(** [_load_file] and [attrs] of a container; [tag_of] is its tag attribute. *)
Variable tag_of : C -> option str.
Variable set_tag : str -> C -> C.
(** [os.path.splitext] (posix), first part: the last dot counts unless only dots
    precede it. *)
Definition splitext0 (name : str) : str :=
  let t := tail_of dot name in
  let h := firstn (length name - length t) name in
  match rev h with
  | [] => name
  | _ :: r => if forallb (ceqb dot) r then name else rev r
  end.
Definition stem (path : str) : str := splitext0 (snd (path_split path)).
(** [LoadFilesFromParams.process], lines 389-422: result and new [_file_ind]. *)
Definition load_next (files : list str) (ind : nat) : res C * nat :=
  if ind =? length files then (Err PipelineStopIteration, ind)
  else match nth_error files ind with
       | None => (Err IndexError, ind)
       | Some f =>
           match load f with
           | Err e => (Err e, ind)
           | Ok c => (Ok (match tag_of c with None => set_tag (stem f) c | Some _ => c end), S ind)
           end
       end.
(** The results of [n] calls. *)
Fixpoint load_run (n : nat) (files : list str) (ind : nat) : list (res C) :=
  match n with
  | O => []
  | S n => let '(r, ind) := load_next files ind in r :: load_run n files ind
  end.
(** [LoadFilesFromPathAndTag.setup], lines 564-573; [fmt] is [str.format]. *)
Definition path_tag_files (fmt : str -> str -> str) (paths tags : list str) : list str :=
  flat_map (fun path => map (fun tag => fmt path tag) tags) paths.

(** [LoadFilesAndSelect.setup], lines 479-500.  Labels are what [key_format]
    gives for the attributes of a container. *)
Variable label : C -> str.
Inductive key := KIndex (n : nat) | KLabel (s : str).
Definition key_eqb (a b : key) : bool :=
  match a, b with
  | KIndex n, KIndex m => n =? m
  | KLabel s, KLabel t => seqb s t
  | _, _ => false
  end.
Definition kput (k : key) (c : C) (d : list (key * C)) : list (key * C) :=
  if existsb (fun e => key_eqb k (fst e)) d
  then map (fun e => if key_eqb k (fst e) then (k, c) else e) d
  else d ++ [(k, c)].
Definition kget (k : key) (d : list (key * C)) : option C :=
  option_map snd (find (fun e => key_eqb k (fst e)) d).
Fixpoint collect (by_label : bool) (ff : nat) (files : list str) (d : list (key * C)) : res (list (key * C)) :=
  match files with
  | [] => Ok d
  | f :: rest =>
      match load f with
      | Err e => Err e
      | Ok c => collect by_label (S ff) rest (kput (if by_label then KLabel (label c) else KIndex ff) c d)
      end
  end.
(** [LoadFilesAndSelect.process], lines 502-537; [None] is no output. *)
Definition select (by_label : bool) (collection : list (key * C)) (count : nat) (incont : C) : res (option C) :=
  if by_label then Ok (kget (KLabel (label incont)) collection)
  else match length collection with
       | O => Err ZeroDivisionError
       | S _ => match kget (KIndex (count mod length collection)) collection with
                | Some c => Ok (Some c)
                | None => Err KeyError
                end
       end.
(** Calls of [next]: the counter advances when there is output. *)
Fixpoint select_run (by_label : bool) (collection : list (key * C)) (count : nat) (inputs : list C) : list (res (option C)) :=
  match inputs with
  | [] => []
  | x :: rest =>
      let r := select by_label collection count x in
      r :: select_run by_label collection (match r with Ok (Some _) => S count | _ => count end) rest
  end.
(** [Save.next], lines 614-634: file names and the new [count]. *)
Definition save_next (root : str) (count : nat) (x : C) : str * nat :=
  match tag_of x with
  | None => (root ++ s_ "_" ++ decimal count ++ s_ ".h5", S count)
  | Some t => (root ++ s_ "_" ++ t ++ s_ ".h5", count)
  end.
Fixpoint save_run (root : str) (count : nat) (xs : list C) : list str :=
  match xs with
  | [] => []
  | x :: rest => let '(n, count) := save_next root count x in n :: save_run root count rest
  end.
End Load.
