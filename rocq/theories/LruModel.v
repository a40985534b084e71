(** Model of LRUCache, /repo/caput/util/arraytools.py lines 29-48.

    caput supplies the size function ([_array_size], lines 42-46: [ValueError]
    for anything that is not an ndarray, otherwise nbytes) and the byte budget.
    The dictionary itself is cachetools.LRUCache (external, not in /repo),
    modelled from its published source: [Cache.__setitem__], [__delitem__],
    [LRUCache.__getitem__], [popitem].  Keys are [nat]; values are an arbitrary
    type with a size function returning [None] for non arrays. *)
From Coq Require Import List Arith Bool.
From Verif Require Import PyBase.
Import ListNotations.

Section Lru.
  Variable V : Type.
  Variable nbytes : V -> option nat.   (* None: not an ndarray *)
  Variable maxsize : nat.

  (** The entries in order of use, least recently used first, each with the
      size recorded at insertion ([Cache.__size]); and [Cache.__currsize]. *)
  Record cache := mkc { items : list (nat * (V * nat)); currsize : nat }.
  Definition empty : cache := mkc [] 0.

  Definition lookup (c : cache) (k : nat) : option (V * nat) :=
    match find (fun e => fst e =? k) (items c) with
    | Some e => Some (snd e)
    | None => None
    end.
  Definition remove_key (k : nat) (l : list (nat * (V * nat))) :=
    filter (fun e => negb (fst e =? k)) l.

  (** [__delitem__] *)
  Definition delitem (c : cache) (k : nat) : res (cache) :=
    match lookup c k with
    | Some (_, s) => Ok (mkc (remove_key k (items c)) (currsize c - s))
    | None => Err KeyError
    end.

  (** [popitem]: drop the least recently used entry. *)
  Definition popitem (c : cache) : res cache :=
    match items c with
    | [] => Err KeyError
    | (k, _) :: _ => delitem c k
    end.

  (** The loop [while self.__currsize + size > maxsize: self.popitem()]; the
      fuel is the number of entries (each turn removes one). *)
  Fixpoint evict (fuel : nat) (size : nat) (c : cache) : res cache :=
    if currsize c + size <=? maxsize then Ok c
    else match fuel with
         | 0 => Err KeyError
         | S f => rbind (popitem c) (evict f size)
         end.

  (** [__setitem__] *)
  Definition setitem (c : cache) (k : nat) (v : V) : res cache :=
    match nbytes v with
    | None => Err ValueError
    | Some size =>
        if maxsize <? size then Err ValueError
        else
          let need := match lookup c k with Some (_, s) => s <? size | None => true end in
          rbind (if need then evict (length (items c)) size c else Ok c) (fun c =>
          let cur := match lookup c k with
                     | Some (_, s) => currsize c + size - s
                     | None => currsize c + size end in
          Ok (mkc (remove_key k (items c) ++ [(k, (v, size))]) cur))
    end.

  (** [__getitem__]: a hit becomes the most recently used entry. *)
  Definition getitem (c : cache) (k : nat) : res (V * cache) :=
    match lookup c k with
    | Some (v, s) => Ok (v, mkc (remove_key k (items c) ++ [(k, (v, s))]) (currsize c))
    | None => Err KeyError
    end.

  Inductive op := Get (k : nat) | Set_ (k : nat) (v : V) | Del (k : nat).

  (** One call; an exception leaves the cache as it was. *)
  Definition step (c : cache) (o : op) : cache :=
    match o with
    | Get k => match getitem c k with Ok (_, c') => c' | Err _ => c end
    | Set_ k v => match setitem c k v with Ok c' => c' | Err _ => c end
    | Del k => match delitem c k with Ok c' => c' | Err _ => c end
    end.
  Definition run (ops : list op) : cache := fold_left step ops empty.
End Lru.
Arguments Get {V}. Arguments Set_ {V}. Arguments Del {V}.
