(** Model of the LRU cache, returnn/util/lru_cache.py:64-250: a dict from keys to the links of a circular doubly linked
    list, which is changed in place. *)
From Verif Require Import Base PyDict.

Section Lru.
  (** [K]: the keys that [_make_key] (lru_cache.py:253-284) builds from the arguments, compared with [==].
      [V]: the results. *)
  Context {K V : Type} {E : EqB K}.

  (** lru_cache.py:67, 76: a link is the python list [[PREV, NEXT, KEY, RESULT]]; lists are objects, so links
      refer to each other by address. KEY and RESULT are [None] in the root. *)
  Record link := Link { l_prev : nat; l_next : nat; l_key : option K; l_res : option V }.
  (** The memory. A list that was cleared has no items any more: [None]. *)
  Definition heap := nat -> option link.
  Definition hset (h : heap) (a : nat) (l : option link) : heap := fun b => if a =? b then l else h b.
  (** access to an item of a cleared list raises IndexError *)
  Definition hget (h : heap) (a : nat) : res link := match h a with Some l => Ok l | None => Err IndexError end.
  (** [x[NEXT] = y], [x[PREV] = y] *)
  Definition set_next (h : heap) (x y : nat) : res heap :=
    let* l := hget h x in Ok (hset h x (Some (Link (l_prev l) y (l_key l) (l_res l)))).
  Definition set_prev (h : heap) (x y : nat) : res heap :=
    let* l := hget h x in Ok (hset h x (Some (Link y (l_next l) (l_key l) (l_res l)))).
  Definition set_kr (h : heap) (x : nat) (k : option K) (r : option V) : res heap :=
    let* l := hget h x in Ok (hset h x (Some (Link (l_prev l) (l_next l) k r))).

  (** lru_cache.py:69-77: the variables of the closure; [s_fresh] is an address that was never used. *)
  Record state := State {
    s_heap : heap; s_cache : dict K nat; s_root : nat; s_hits : nat; s_misses : nat; s_full : bool; s_max : nat; s_fresh : nat }.

  (** lru_cache.py:69-79 *)
  Definition init (maxsize : nat) : state :=
    State (hset (fun _ => None) 0 (Some (Link 0 0 None None))) [] 0 0 0 false maxsize 1.

  Definition with_heap (s : state) (h : heap) : state :=
    State h (s_cache s) (s_root s) (s_hits s) (s_misses s) (s_full s) (s_max s) (s_fresh s).

  (** lru_cache.py:87-102: the first locked part of a call. A hit gives the result, a miss [None]. *)
  Definition lookup (k : K) (s : state) : res (state * option V) :=
    match dget (s_cache s) k with
    | Some a =>
        let* l := hget (s_heap s) a in
        let* h := set_next (s_heap s) (l_prev l) (l_next l) in
        let* h := set_prev h (l_next l) (l_prev l) in
        let* r := hget h (s_root s) in
        let last := l_prev r in
        let* h := set_next h last a in
        let* h := set_prev h (s_root s) a in
        let* h := set_prev h a last in
        let* h := set_next h a (s_root s) in
        Ok (State h (s_cache s) (s_root s) (S (s_hits s)) (s_misses s) (s_full s) (s_max s) (s_fresh s), l_res l)
    | None =>
        Ok (State (s_heap s) (s_cache s) (s_root s) (s_hits s) (S (s_misses s)) (s_full s) (s_max s) (s_fresh s), None)
    end.

  (** lru_cache.py:108-146 [_cache_insert], locked *)
  Definition insert (k : K) (v : V) (s : state) : res state :=
    if dhas (s_cache s) k then Ok s
    else if s_full s then
      let oldroot := s_root s in
      let* h := set_kr (s_heap s) oldroot (Some k) (Some v) in
      let* o := hget h oldroot in
      let root := l_next o in
      let* r := hget h root in
      let* h := set_kr h root None None in
      match l_key r with
      | None => Err KeyError  (* [del cache[None]]; the keys of calls are never [None] here *)
      | Some oldkey =>
          if dhas (s_cache s) oldkey
          then Ok (State h (dset (ddel (s_cache s) oldkey) k oldroot) root (s_hits s) (s_misses s) (s_full s) (s_max s) (s_fresh s))
          else Err KeyError
      end
    else
      let* r := hget (s_heap s) (s_root s) in
      let last := l_prev r in
      let a := s_fresh s in
      let h := hset (s_heap s) a (Some (Link last (s_root s) (Some k) (Some v))) in
      let* h := set_next h last a in
      let* h := set_prev h (s_root s) a in
      let c := dset (s_cache s) k a in
      Ok (State h c (s_root s) (s_hits s) (s_misses s) (s_max s <=? length c) (s_max s) (S a)).

  (** lru_cache.py:81-106: a whole call in one thread. [f] is the user function, for these arguments. It may raise. *)
  Definition call (f : K -> res V) (k : K) (s : state) : state * res V :=
    match lookup k s with
    | Err e => (s, Err e)
    | Ok (s', Some v) => (s', Ok v)
    | Ok (s', None) =>
        match f k with
        | Err e => (s', Err e)
        | Ok v =>
            if 0 <? s_max s' then
              match insert k v s' with Ok s'' => (s'', Ok v) | Err e => (s', Err e) end
            else (s', Ok v)
        end
    end.

  (** lru_cache.py:153-162 [cache_clear]; the links in the cache are cleared, the root points to itself *)
  Definition clear (s : state) : state :=
    let h := fold_left (fun h a => hset h a None) (dvals (s_cache s)) (s_heap s) in
    State (hset h (s_root s) (Some (Link (s_root s) (s_root s) None None))) [] (s_root s) 0 0 false (s_max s) (s_fresh s).

  (** lru_cache.py:170-177 [cache_set] *)
  Definition cache_set (k : K) (v : V) (s : state) : res state := if 0 <? s_max s then insert k v s else Ok s.

  (** lru_cache.py:179-193 [cache_peek] *)
  Definition peek (k : K) (upd : bool) (s : state) : res (state * option V) :=
    let stat h m := State (s_heap s) (s_cache s) (s_root s) (s_hits s + h) (s_misses s + m) (s_full s) (s_max s) (s_fresh s) in
    match dget (s_cache s) k with
    | Some a => let* l := hget (s_heap s) a in Ok (if upd then stat 1 0 else s, l_res l)
    | None => Ok (if upd then stat 0 1 else s, None)
    end.

  (** lru_cache.py:197-217 [cache_pop]; [fallback] is [None] if not specified *)
  Definition pop (k : K) (fallback : option V) (s : state) : res (state * option V) :=
    match dget (s_cache s) k with
    | Some a =>
        let* l := hget (s_heap s) a in
        let* h := set_next (s_heap s) (l_prev l) (l_next l) in
        let* l := hget h a in
        let* h := set_prev h (l_next l) (l_prev l) in
        let* l := hget h a in
        let h := hset h a None in
        match l_key l with
        | None => Err KeyError
        | Some k' =>
            if dhas (s_cache s) k' then
              let c := ddel (s_cache s) k' in
              Ok (State h c (s_root s) (s_hits s) (s_misses s) (s_max s <=? length c) (s_max s) (s_fresh s), l_res l)
            else Err KeyError
        end
    | None => match fallback with Some v => Ok (s, Some v) | None => Err KeyError end
    end.

  (** lru_cache.py:219-239 [cache_pop_oldest] *)
  Definition pop_oldest (fallback : option V) (s : state) : res (state * option V) :=
    match s_cache s with
    | [] => match fallback with Some v => Ok (s, Some v) | None => Err KeyError end
    | _ =>
        let* r := hget (s_heap s) (s_root s) in
        let a := l_next r in
        let* l := hget (s_heap s) a in
        let* h := set_prev (s_heap s) (l_next l) (s_root s) in
        let* l := hget h a in
        let* h := set_next h (s_root s) (l_next l) in
        let* l := hget h a in
        let h := hset h a None in
        match l_key l with
        | None => Err KeyError
        | Some k' =>
            if dhas (s_cache s) k' then
              let c := ddel (s_cache s) k' in
              Ok (State h c (s_root s) (s_hits s) (s_misses s) (s_max s <=? length c) (s_max s) (s_fresh s), l_res l)
            else Err KeyError
        end
    end.

  (** lru_cache.py:241-252 [cache_set_maxsize]; the loop pops at most [fuel] entries *)
  Fixpoint shrink (fuel : nat) (s : state) : res state :=
    if s_max s <? length (s_cache s) then
      match fuel with
      | 0 => Err OutOfFuel
      | S fuel' => let* (s', _) := pop_oldest None s in shrink fuel' s'
      end
    else Ok s.
  Definition set_maxsize (n : nat) (s : state) : res state :=
    let s := State (s_heap s) (s_cache s) (s_root s) (s_hits s) (s_misses s) (s_full s) n (s_fresh s) in
    let* s := shrink (length (s_cache s)) s in
    Ok (State (s_heap s) (s_cache s) (s_root s) (s_hits s) (s_misses s) (s_max s <=? length (s_cache s)) (s_max s) (s_fresh s)).

  (** ** The operations of the API as steps. [Lookup] and [Insert] are the two locked parts of a call, for calls
      in several threads; [Call] is a whole call. *)
  Inductive op :=
  | Call (k : K) | Set_ (k : K) (v : V) | Peek (k : K) (update_statistics : bool)
  | Pop (k : K) (fallback : option V) | PopOldest (fallback : option V) | Clear | SetMaxsize (n : nat)
  | Lookup (k : K) | Insert (k : K) (v : V).

  Definition step (f : K -> res V) (o : op) (s : state) : state * res (option V) :=
    let ret r := match r with Ok (s', v) => (s', Ok v) | Err e => (s, Err e) end in
    let unit_ r := match r with Ok s' => (s', Ok None) | Err e => (s, Err e) end in
    match o with
    | Call k => let (s', r) := call f k s in (s', match r with Ok v => Ok (Some v) | Err e => Err e end)
    | Set_ k v => unit_ (cache_set k v s)
    | Peek k u => ret (peek k u s)
    | Pop k fb => ret (pop k fb s)
    | PopOldest fb => ret (pop_oldest fb s)
    | Clear => (clear s, Ok None)
    | SetMaxsize n => unit_ (set_maxsize n s)
    | Lookup k => ret (lookup k s)
    | Insert k v => unit_ (insert k v s)
    end.

  Fixpoint run (f : K -> res V) (ops : list op) (s : state) : state * list (res (option V)) :=
    match ops with
    | [] => (s, [])
    | o :: ops' => let (s', r) := step f o s in let (s'', rs) := run f ops' s' in (s'', r :: rs)
    end.

  (** lru_cache.py:148-151 [cache_info]: hits, misses, maxsize, currsize *)
  Definition cache_info (s : state) : nat * nat * nat * nat := (s_hits s, s_misses s, s_max s, length (s_cache s)).
End Lru.
Arguments op : clear implicits.
Arguments state : clear implicits.
Arguments link : clear implicits.
