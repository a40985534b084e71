(** What a user expects of dataset handles: a looked-up dataset is the name under
    which it was found, a copy is a value of its own. *)
From Coq Require Import String.
From Coq Require Import List Ascii Bool Arith ZArith.
From Verif Require Import PyBase PyStr MemModel FmtModel DhModel.
Import ListNotations.
Open Scope list_scope.
Open Scope nat_scope.

Record cell := Cell { c_shape : list nat; c_vals : list Z; c_attrs : list (str * Z); c_axis : option nat }.
Inductive key := KName (r : nat) (n : str) | KOwn (j : nat).
(** Named cells of every root, cells of copies, and what each handle stands for. *)
Record astate := ASt { names : list (list (str * cell)); owns : list cell; akeys : list key }.

Definition cell_of (a : astate) (k : key) : option cell :=
  match k with
  | KName r n => match nth_error (names a) r with Some l => dget n l | None => None end
  | KOwn j => nth_error (owns a) j
  end.
Definition put_cell (a : astate) (k : key) (c : cell) : astate :=
  match k with
  | KName r n => match nth_error (names a) r with
                 | Some l => ASt (lset r (dput n c l) (names a)) (owns a) (akeys a)
                 | None => a
                 end
  | KOwn j => ASt (names a) (lset j c (owns a)) (akeys a)
  end.
Definition key_of (a : astate) (x : dref) : res key :=
  match x with
  | Base r n => match nth_error (names a) r with
                | Some l => match dget n l with Some _ => Ok (KName r n) | None => Err KeyError end
                | None => Err AttributeError
                end
  | Hand i => match nth_error (akeys a) i with Some k => Ok k | None => Err UnboundLocalError end
  end.
Definition add_key (a : astate) (k : key) : astate := ASt (names a) (owns a) (akeys a ++ [k]).
Definition with_cell (a : astate) (x : dref) {B} (f : key -> cell -> res B) : res B :=
  rbind (key_of a x) (fun k => match cell_of a k with Some c => f k c | None => Err KeyError end).

Definition aexec (csize : nat) (a : astate) (o : op) : res (astate * out) :=
  match o with
  | New r n shape vals axis _ =>
      match nth_error (names a) r with
      | None => Err AttributeError
      | Some l => if negb (axis_ok shape axis) then Err IndexError
                  else Ok (ASt (lset r (dput n (Cell shape vals [] axis) l) (names a)) (owns a) (akeys a), Done)
      end
  | Delete r n =>
      match nth_error (names a) r with
      | None => Err AttributeError
      | Some l => match dget n l with
                  | None => Err KeyError
                  | Some _ => Ok (ASt (lset r (ddel n l) (names a)) (owns a) (akeys a), Done)
                  end
      end
  | Lookup r n => rbind (key_of a (Base r n)) (fun k => Ok (add_key a k, Done))
  | View (Base r n) =>
      (* only the storage itself hands these out: a value of its own, sharing the cell *)
      rbind (key_of a (Base r n)) (fun k => Ok (add_key a k, Done))
  | View (Hand i) => rbind (key_of a (Hand i)) (fun k => Ok (add_key a k, Done))
  | Copy x => with_cell a x (fun _ c => Ok (ASt (names a) (owns a ++ [c]) (akeys a ++ [KOwn (length (owns a))]), Done))
  | Write x i v =>
      with_cell a x (fun k c =>
        if i <? length (c_vals c)
        then Ok (put_cell a k (Cell (c_shape c) (lset i v (c_vals c)) (c_attrs c) (c_axis c)), Done)
        else Err IndexError)
  | Read x i => with_cell a x (fun _ c => match nth_error (c_vals c) i with Some v => Ok (a, Val v) | None => Err IndexError end)
  | SetAttr x k v => with_cell a x (fun key c => Ok (put_cell a key (Cell (c_shape c) (c_vals c) (dput k v (c_attrs c)) (c_axis c)), Done))
  | GetAttr x k => with_cell a x (fun _ c => match dget k (c_attrs c) with Some v => Ok (a, Val v) | None => Err KeyError end)
  | GetAxis x => with_cell a x (fun _ c => Ok (a, Axis (c_axis c)))
  | Redist x axis =>
      with_cell a x (fun k c =>
        match c_axis c with
        | None => Err AttributeError
        | Some _ => if axis <? length (c_shape c)
                    then Ok (put_cell a k (Cell (c_shape c) (c_vals c) (c_attrs c) (Some axis)), Done)
                    else Err (if csize =? 1 then AxisException else IndexError)
        end)
  | SetOn x k =>
      with_cell a x (fun _ c =>
        match k with
        | SChunks (Some v) => if length v =? length (c_shape c) then Ok (a, Done) else Err ValueError
        | _ => Ok (a, Done)
        end)
  end.
Definition astep (csize : nat) (a : astate) (o : op) : astate * out :=
  match aexec csize a o with Ok p => p | Err e => (a, Raised e) end.
Fixpoint arun (csize : nat) (a : astate) (os : list op) : astate * list out :=
  match os with
  | [] => (a, [])
  | o :: os => let '(a, x) := astep csize a o in let '(a, xs) := arun csize a os in (a, x :: xs)
  end.
Definition astart (nroots : nat) : astate := ASt (repeat [] nroots) [] [].

(** Conditions on programs. *)
Definition created (o : op) : list (nat * str) := match o with New r n _ _ _ _ => [(r, n)] | _ => [] end.
Definition no_name_twice (os : list op) : Prop := NoDup (flat_map created os).
Definition is_delete (o : op) : bool := match o with Delete _ _ => true | _ => false end.
Definition is_redist (o : op) : bool := match o with Redist _ _ => true | _ => false end.
Definition is_getaxis (o : op) : bool := match o with GetAxis _ => true | _ => false end.
Definition never (p : op -> bool) (os : list op) : Prop := forall o, In o os -> p o = false.
(** Only datasets that stand for a name are redistributed. *)
Fixpoint names_redistributed (csize : nat) (a : astate) (os : list op) : Prop :=
  match os with
  | [] => True
  | o :: os =>
      match o with
      | Redist x _ => match key_of a x with Ok (KOwn _) => False | _ => True end
      | _ => True
      end /\ names_redistributed csize (fst (astep csize a o)) os
  end.

(** Chunks: as many as there are dimensions, none longer than the axis. *)
Definition ChunksOf (given shape result : list nat) : Prop :=
  length result = length shape
  /\ forall i, i < length shape -> nth i result 0 = Nat.min (nth i given 0) (nth i shape 0).

(** Statements which change the settings of the dataset stored under a name, or
    which dataset that is. *)
Definition touches (r : nat) (n : str) (o : op) : bool :=
  match o with
  | New r' n' _ _ _ _ | Delete r' n' | SetOn (Base r' n') _ => (r =? r') && seqb n n'
  | _ => false
  end.

(** What a specification does to a dataset: only what is not set yet is set. *)
Record Ensured (p : dspec) (it it' : item) : Prop := {
  en_shape : i_shape it' = i_shape it;
  en_dist : i_dist it' = i_dist it;
  en_chunks : match s_chunks (i_set it), p_chunks p with
              | None, Some given => exists c, s_chunks (i_set it') = Some c /\ ChunksOf given (i_shape it) c
              | old, _ => s_chunks (i_set it') = old
              end;
  en_comp : s_comp (i_set it') = match s_comp (i_set it), p_comp p with ANone, Some c => c | old, _ => old end;
  en_opts : s_opts (i_set it') = match s_opts (i_set it), p_opts p with ONone, Some o => o | old, _ => old end }.
(** A specification with fewer chunk sizes than the dataset has dimensions. *)
Definition TooShort (p : dspec) (it : item) : Prop :=
  s_chunks (i_set it) = None /\ exists given, p_chunks p = Some given /\ length given < length (i_shape it).

(** The last value that a list of assignments gives. *)
Definition last_chunks (ks : list setting) (d : option (list nat)) : option (list nat) :=
  fold_left (fun acc k => match k with SChunks c => c | _ => acc end) ks d.
Definition last_comp (ks : list setting) (d : carg) : carg := fold_left (fun acc k => match k with SComp c => c | _ => acc end) ks d.
Definition last_opts (ks : list setting) (d : copts) : copts := fold_left (fun acc k => match k with SOpts o => o | _ => acc end) ks d.
Definition fitting (shape : list nat) (k : setting) : Prop :=
  match k with SChunks (Some v) => length v = length shape | _ => True end.
Definition in_group (n : str) : bool := existsb (ceqb slash) n.

(** What the settings given for a dataset do to it. *)
Definition Overridden (ks : list setting) (it it' : item) : Prop :=
  i_shape it' = i_shape it /\ i_dist it' = i_dist it
  /\ s_comp (i_set it') = last_comp ks (s_comp (i_set it))
  /\ s_opts (i_set it') = (match last_opts ks (s_opts (i_set it)) with
                           | ONone => if is_shorthand (last_comp ks (s_comp (i_set it))) then OSeq [AInt 0%Z; AInt 2%Z] else ONone
                           | o => o
                           end)
  /\ match last_chunks ks None with
     | Some v => exists c, s_chunks (i_set it') = Some c /\ ChunksOf v (i_shape it) c
     | None => s_chunks (i_set it') = last_chunks ks (s_chunks (i_set it))
     end.

(** Two datasets are equal: the same place, the same contents, the same settings. *)
Definition SameDict (a b : list (str * Z)) : Prop := forall k, dget k a = dget k b.
Definition SameDset (st : state) (x y : dset) : Prop :=
  (a_axis (d_data x) = None <-> a_axis (d_data y) = None) /\ d_root x = d_root y /\ d_name x = d_name y /\ d_set x = d_set y
  /\ (exists a b, nth_error (atts st) (d_attrs x) = Some a /\ nth_error (atts st) (d_attrs y) = Some b /\ SameDict a b)
  /\ (exists b, nth_error (bufs st) (a_buf (d_data x)) = Some b /\ nth_error (bufs st) (a_buf (d_data y)) = Some b).
Definition attrs_ok (st : state) : Prop := forall i a, nth_error (atts st) i = Some a -> NoDup (map fst a).
