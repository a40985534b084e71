(** Errors of configurations and their lines, /repo/caput/config.py 527-583
    ([_line_dict], [SafeLineLoader], [CaputConfigError]).

    Simplified: a YAML document is the tree of nodes the parser makes of it, with the line a
    mapping starts on, counted from 0; keys are strings; no anchors and merge keys. *)
From Coq Require Import String.
From Coq Require Import List Ascii Bool Arith.
From Verif Require Import PyBase PyStr MemModel GlobModel.
Import ListNotations.
Open Scope list_scope.
Open Scope nat_scope.

Inductive ynode :=
| NScalar (text : str)
| NSeq (l : list ynode)
| NMap (start : nat) (kv : list (str * ynode)).
(** A [_line_dict] with its attribute [__line__], and a dictionary without. *)
Inductive yval :=
| VScalar (text : str)
| VList (l : list yval)
| VDict (d : list (str * yval))
| VLine (line : option nat) (d : list (str * yval)).

(** [dict.update] *)
Definition update (d kv : list (str * yval)) : list (str * yval) := fold_left (fun d p => dput (fst p) (snd p) d) kv d.
(** Lines 540-548; the items of the node have been constructed. *)
Definition construct_mapping (start : nat) (kv : list (str * yval)) : yval :=
  let mapping := update [] kv in
  VLine (Some (start + 1)) (update [] mapping).
(** [SafeConstructor.construct_yaml_map] of PyYAML, which stands behind every mapping: it makes
    [data = {}], and afterwards [data.update(self.construct_mapping(node))]. *)
Definition construct_yaml_map (start : nat) (kv : list (str * yval)) : yval :=
  match construct_mapping start kv with
  | VLine _ d => VDict (update [] d)
  | VDict d => VDict (update [] d)
  | v => v
  end.
(** [yaml.load(doc, Loader=SafeLineLoader)] *)
Fixpoint construct (n : ynode) : yval :=
  match n with
  | NScalar t => VScalar t
  | NSeq l => VList (map construct l)
  | NMap start kv => construct_yaml_map start (map (fun p => (fst p, construct (snd p))) kv)
  end.

Record cerr := mkcerr { e_message : str; e_file : option str; e_line : option nat }.
(** Lines 565-574 *)
Definition cerr_new (message : str) (file : option str) (location : option yval) : cerr :=
  mkcerr message file (match location with Some (VLine line _) => line | _ => None end).
(** Lines 576-582 *)
Definition newline : ascii := ascii_of_nat 10.
Definition cerr_str (e : cerr) : str :=
  let location :=
    match e_line e with
    | None => []
    | Some line =>
        let location := newline :: s_ "Error in block starting at L" ++ decimal line in
        match e_file e with None => location | Some f => location ++ s_ " (" ++ f ++ s_ ")" end
    end in
  e_message e ++ location.
