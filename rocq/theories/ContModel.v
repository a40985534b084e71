(** caput/containers/_core.py: the specifications of containers
    ([_class_dataset_spec] 594-611, [dataset_spec] 614-622, [_class_axes]
    625-640, [axes] 643-653, [_make_selections] 656-699), [TableSpec.__init__]
    (757-788) and [table_spec] (803-815), and [Container.redistribute] (202-266).

    Classes are numbers; [mro] is the method resolution order Python computes
    for them.  A dataset specification is a parameter where only its name
    matters.  Names are strings of bytes, compared by code. *)
From Coq Require Import String.
From Coq Require Import List Ascii Bool Arith ZArith.
From Verif Require Import PyBase PyStr MemModel AttrModel.
Import ListNotations.
Open Scope list_scope.
Open Scope nat_scope.

(** * [sorted] on names *)
Definition sort_names : list str -> list str := py_sorted sleb.

Definition update {V} (d e : list (str * V)) : list (str * V) := fold_left (fun d kv => dput (fst kv) (snd kv) d) e d.
(** [{k: d[k] for k in sorted(d)}] *)
Definition sort_dict {V} (d : list (str * V)) : list (str * V) :=
  flat_map (fun k => match dget k d with Some v => [(k, v)] | None => [] end) (sort_names (map fst d)).
(** [set(a) | set(b)] *)
Definition mem_name (x : str) (l : list str) : bool := existsb (seqb x) l.
Definition union (a b : list str) : list str := fold_left (fun s x => if mem_name x s then s else s ++ [x]) b a.

(** * Classes *)
Section Classes.
Context {D : Type}.                                       (* a dataset specification *)
Record cls := mkcls { c_spec : option (list (str * D)); c_axes : option (list str) }.
Variable env : nat -> cls.
Variable mro : nat -> list nat.

(** [c.name]: the first class in the resolution order of [c] that defines it. *)
Fixpoint first_some {A} (f : nat -> option A) (l : list nat) : option A :=
  match l with
  | [] => None
  | c :: r => match f c with Some x => Some x | None => first_some f r end
  end.
Definition spec_attr (c : nat) := first_some (fun k => c_spec (env k)) (mro c).
Definition axes_attr (c : nat) := first_some (fun k => c_axes (env k)) (mro c).

(** [_class_dataset_spec], lines 594-611: a class that does not define
    [_dataset_spec] passes the attribute lookup on to its bases. *)
Definition class_spec (c : nat) : list (str * D) :=
  sort_dict (fold_left (fun d k => match spec_attr k with Some e => update d e | None => d end) (rev (mro c)) []).
(** [dataset_spec], lines 614-622, with the [_dataset_spec] of the instance *)
Definition dataset_spec (c : nat) (inst : list (str * D)) : list (str * D) := sort_dict (update (class_spec c) inst).
(** [_class_axes] and [axes], lines 625-653 *)
Definition class_axes (c : nat) : list str :=
  sort_names (fold_left (fun s k => match axes_attr k with Some l => union s l | None => s end) (rev (mro c)) []).
Definition axes (c : nat) (inst : list str) : list str := sort_names (union (union [] (class_axes c)) inst).
End Classes.

(** * Selections *)
(** An axis is a name, or the length of one without a name. *)
Inductive axis := AName (s : str) | ALen (n : nat).
Section Select.
Context {S D : Type}.
Variable whole : S.                                        (* [slice(None)] *)
Variable axes_of : D -> list axis.                         (* [dataset["axes"]] *)

(** What goes into a selections dictionary: a tuple, or one selection. *)
Inductive selv := STuple (l : list S) | SOne (s : S).
Definition axis_sel (args : list (str * S)) (a : axis) : option S :=
  match a with AName s => dget s args | ALen _ => None end.
Definition dataset_sel (args : list (str * S)) (d : D) : list S * bool :=
  fold_left (fun acc a => match axis_sel args a with
                          | Some s => (fst acc ++ [s], true)
                          | None => (fst acc ++ [whole], snd acc)
                          end) (axes_of d) ([], false).
(** [_make_selections], lines 656-699 *)
Definition make_selections (class_axes : list str) (spec : list (str * D)) (args : list (str * S))
  : res (list (str * selv)) :=
  if forallb (fun kv => mem_name (fst kv) class_axes) args then
    let sels := fold_left (fun d kv => let '(l, relevant) := dataset_sel args (snd kv) in
                                       if relevant : bool then dput ("/"%char :: fst kv) (STuple l) d else d) spec [] in
    Ok (fold_left (fun d kv => dput (s_ "/index_map/" ++ fst kv) (SOne (snd kv)) d) args sels)
  else Err RuntimeError.
End Select.

(** * Tables, lines 757-815 *)
Record dspec := mkspec { d_axes : list axis; d_dist : str; d_init : bool; d_distributed : bool }.
(** An entry of [_table_spec]; the columns do not matter here. *)
Record tspec := mktab { t_axis : option str; t_init : option bool; t_distributed : option bool }.
Section Tables.
Variable env : nat -> @cls dspec.
Variable mro : nat -> list nat.
Variable tables : nat -> option (list (str * tspec)).     (* the [_table_spec] of each class itself *)

Definition table_attr (c : nat) := first_some tables (mro c).
Definition table_spec (c : nat) : list (str * tspec) :=
  fold_left (fun d k => match table_attr k with Some e => update d e | None => d end) (rev (mro c)) [].
Definition table_axis (name : str) (t : tspec) : str :=
  match t_axis t with Some a => a | None => name ++ s_ "_index" end.
Definition table_dataset (name : str) (t : tspec) : dspec :=
  let a := table_axis name t in
  mkspec [AName a] a (match t_init t with Some b => b | None => true end)
         (match t_distributed t with Some b => b | None => false end).
(** [TableSpec.__init__], up to the call of the base class: the classes
    afterwards, and the [_dataset_spec] and [_axes] of the instance.  The
    dictionary of the class itself is updated in place. *)
Definition table_init (c : nat) : (nat -> @cls dspec) * list (str * dspec) * list str :=
  let own := match c_spec (env c) with Some d => d | None => [] end in
  let ax := match c_axes (env c) with Some l => l | None => [] end in
  let '(d, ax) := fold_left (fun acc kv =>
      (dput (fst kv) (table_dataset (fst kv) (snd kv)) (fst acc),
       let a := table_axis (fst kv) (snd kv) in if mem_name a (snd acc) then snd acc else snd acc ++ [a]))
    (table_spec c) (own, ax) in
  let env' := fun k => if k =? c then match c_spec (env c) with
                                      | Some _ => mkcls (Some d) (c_axes (env c))
                                      | None => env c
                                      end
                       else env k in
  (env', d, ax).
End Tables.

(** * [Container.redistribute], lines 202-266 *)
Inductive axarg := XName (s : str) | XInt (z : Z).
Fixpoint index_name (s : str) (l : list str) : option nat :=
  match l with
  | [] => None
  | x :: r => if seqb s x then Some 0 else option_map Datatypes.S (index_name s r)
  end.
(** The axis a dataset of [naxis] dimensions is redistributed to. *)
Fixpoint pick_axis (naxis : nat) (labels : option (list str)) (l : list axarg) : option Z :=
  match l with
  | [] => None
  | a :: r =>
      let found := match a with
                   | XName s => match labels with
                                | Some ls => option_map Z.of_nat (index_name s ls)
                                | None => None
                                end
                   | XInt z => Some (if (z <? 0)%Z then (Z.of_nat naxis + z)%Z else z)
                   end in
      match found with
      | None => pick_axis naxis labels r
      | Some z => if (Z.of_nat naxis <=? z)%Z then pick_axis naxis labels r else Some z
      end
  end.
(** The tree: groups, distributed datasets (dimensions and labels), and others. *)
Inductive node := NGroup (l : list (str * node)) | NDist (naxis : nat) (labels : option (list str)) | NOther.
(** The datasets, with the axis they are redistributed to ([None]: a warning),
    in the order they are visited. *)
Fixpoint redist_loop (fuel : nat) (dist_axis : list axarg) (stack : list (str * node)) : option (list (str * node * option Z)) :=
  match fuel with
  | O => None
  | Datatypes.S f =>
      match rev stack with
      | [] => Some []
      | (name, item) :: below =>
          let stack := rev below in
          match item with
          | NGroup l => redist_loop f dist_axis (stack ++ l)
          | NDist n labels => option_map (cons (name, item, pick_axis n labels dist_axis)) (redist_loop f dist_axis stack)
          | NOther => redist_loop f dist_axis stack
          end
      end
  end.
Fixpoint node_size (n : node) : nat :=
  match n with
  | NGroup l => Datatypes.S (fold_right (fun x s => node_size (snd x) + s) 0 l)
  | _ => 1
  end.
Definition container_redistribute (root : list (str * node)) (dist_axis : list axarg) :=
  redist_loop (node_size (NGroup root)) dist_axis root.
