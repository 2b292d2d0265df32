(** What the LRU cache should do: a list of at most [maxsize] entries, in the order of their last use. *)
From Verif Require Import Base PyDict LruModel.

Section Spec.
  Context {K V : Type} {E : EqB K}.

  (** Entries, the least recently used first; maximum size; number of hits and misses. *)
  Record lru := Lru { entries : list (K * V); maxsize : nat; hits : nat; misses : nat }.

  Definition value_of (es : list (K * V)) (k : K) : option V :=
    match find (fun e => keqb (fst e) k) es with Some e => Some (snd e) | None => None end.
  Definition without (es : list (K * V)) (k : K) : list (K * V) := filter (fun e => negb (keqb (fst e) k)) es.
  (** keep the last [n] *)
  Definition newest (n : nat) (es : list (K * V)) : list (K * V) := skipn (length es - n) es.

  Definition use (c : lru) (k : K) : lru * option V :=
    match value_of (entries c) k with
    | Some v => (Lru (without (entries c) k ++ [(k, v)]) (maxsize c) (S (hits c)) (misses c), Some v)
    | None => (Lru (entries c) (maxsize c) (hits c) (S (misses c)), None)
    end.
  (** A new entry is the newest; the oldest ones are dropped if there are too many. An existing entry is not changed. *)
  Definition add (c : lru) (k : K) (v : V) : lru :=
    match value_of (entries c) k with
    | Some _ => c
    | None => Lru (newest (maxsize c) (entries c ++ [(k, v)])) (maxsize c) (hits c) (misses c)
    end.

  Definition lru_step (f : K -> res V) (o : op K V) (c : lru) : lru * res (option V) :=
    match o with
    | Call k =>
        match use c k with
        | (c', Some v) => (c', Ok (Some v))
        | (c', None) => match f k with Ok v => (add c' k v, Ok (Some v)) | Err e => (c', Err e) end
        end
    | Set_ k v => (add c k v, Ok None)
    | Peek k u => let v := value_of (entries c) k in
        (if u then Lru (entries c) (maxsize c) (match v with Some _ => S (hits c) | None => hits c end)
                       (match v with Some _ => misses c | None => S (misses c) end) else c, Ok v)
    | Pop k fb =>
        match value_of (entries c) k, fb with
        | Some v, _ => (Lru (without (entries c) k) (maxsize c) (hits c) (misses c), Ok (Some v))
        | None, Some v => (c, Ok (Some v))
        | None, None => (c, Err KeyError)
        end
    | PopOldest fb =>
        match entries c, fb with
        | (_, v) :: es, _ => (Lru es (maxsize c) (hits c) (misses c), Ok (Some v))
        | [], Some v => (c, Ok (Some v))
        | [], None => (c, Err KeyError)
        end
    | Clear => (Lru [] (maxsize c) 0 0, Ok None)
    | SetMaxsize n => (Lru (newest n (entries c)) n (hits c) (misses c), Ok None)
    | Lookup k => let (c', v) := use c k in (c', Ok v)
    | Insert k v => (add c k v, Ok None)
    end.

  Fixpoint lru_run (f : K -> res V) (ops : list (op K V)) (c : lru) : lru * list (res (option V)) :=
    match ops with
    | [] => (c, [])
    | o :: ops' => let (c', r) := lru_step f o c in let (c'', rs) := lru_run f ops' c' in (c'', r :: rs)
    end.

  (** [maxsize > 0] whenever the second part of a call of another thread is done: the size is positive and never
      set to 0. *)
  Definition no_interleaving (o : op K V) : Prop := match o with Lookup _ | Insert _ _ => False | _ => True end.
  Definition keeps_positive (o : op K V) : Prop := match o with SetMaxsize n => 0 < n | _ => True end.

  (** The distinct elements of a list, in the order of their first occurrence. *)
  Fixpoint distinct (l : list K) : list K :=
    match l with [] => [] | k :: l' => k :: filter (fun j => negb (keqb k j)) (distinct l') end.
  (** Only results of the function itself are put into the cache. *)
  Definition correct_sets (f : K -> res V) (o : op K V) : Prop := match o with Set_ k v | Insert k v => f k = Ok v | _ => True end.
  (** What the caller of the plain function gets. *)
  Definition answer (r : res V) : res (option V) := match r with Ok v => Ok (Some v) | Err e => Err e end.
  (** What the cache reports about itself. *)
  Definition lru_info (c : lru) : nat * nat * nat * nat := (hits c, misses c, maxsize c, length (entries c)).
End Spec.
Arguments lru : clear implicits.
