(** Model of the cache of the frontend (returnn/frontend/_cache.py), which sits on
    returnn/util/lru_cache.py.  Keys are nested structures of plain values, tensors and
    dims.  The dims of a key are wrapped such that a dim of known scalar size is looked up
    by its size, and the result is renamed to the dims of the caller. *)
From Coq Require Import String ZArith QArith List Bool Arith.
From Verif Require Import Base.
Import ListNotations.
Local Open Scope nat_scope.

(** Plain values in a key: the types in [_RawTypes].
    /repo/returnn/frontend/_cache.py:211. *)
Inductive raw :=
| RNone
| RStr (s : string)
| RBool (b : bool)
| RInt (z : Z)
| RFloat (q : Q).

(** Python's number behind a plain value: [True == 1 == 1.0] holds.  NaN and infinities are
    not covered.  Used by the lookup of /repo/returnn/frontend/_cache.py:52. *)
Definition raw_num (r : raw) : option Q :=
  match r with
  | RBool true => Some (inject_Z 1)
  | RBool false => Some (inject_Z 0)
  | RInt z => Some (inject_Z z)
  | RFloat q => Some q
  | _ => None
  end.

(** Python's [==] on plain values (which agrees with equality of [hash]).
    Used by the lookup of /repo/returnn/frontend/_cache.py:52. *)
Definition raw_eqb (a b : raw) : bool :=
  match raw_num a, raw_num b with
  | Some x, Some y => Qeq_bool x y
  | None, None =>
      match a, b with
      | RNone, RNone => true
      | RStr s, RStr t => String.eqb s t
      | _, _ => false
      end
  | _, _ => false
  end.

(** A leaf of a key, with the attributes which the code reads at the time of the call.
    A tensor is given by its identity and, if it has one, the identity and the backend of
    its raw tensor.  A dim is given by its identity (two dims which are [==] are the same
    here), by the result of [_dim_value_for_key] (/repo/returnn/frontend/_cache.py:198-206)
    and by the identity of the raw tensor of its dynamic sizes.  [KOther]: any other
    python object. *)
Inductive kitem :=
| KRaw (r : raw)
| KTensor (t : nat) (rw : option (nat * nat))
| KDim (d : nat) (val : option nat) (dyn : option nat)
| KOther.

(** Structured keys.  A dict is given with its entries sorted by key.  /repo/returnn/frontend/_cache.py:45. *)
Inductive ktree :=
| KLeaf (i : kitem)
| KSeq (l : list ktree)
| KDict (l : list (string * ktree)).

(** [tree.flatten]: the leaves, without the structure.
    /repo/returnn/frontend/_cache.py:115. *)
Fixpoint flatten (k : ktree) : list kitem :=
  match k with
  | KLeaf i => [i]
  | KSeq l => flat_map flatten l
  | KDict l => flat_map (fun e => flatten (snd e)) l
  end.

(** Cached values.  A tensor is given by its dims and the identity and backend of its raw
    tensor.  /repo/returnn/frontend/_cache.py:67-77. *)
Inductive value :=
| VDim (d : nat)
| VTensor (dims : list nat) (rw : option (nat * nat))
| VRaw (n : nat)
| VSeq (l : list value).

(** Items of a transformed key: /repo/returnn/frontend/_cache.py:106-116,144-195. *)
Inductive witem :=
| WBackend (b : nat)
| WCtx (c : nat)
| WRaw (r : raw)
| WTensor (t : nat) (rw : nat)
| WDim (d : nat) (val : option nat) (dyn : option nat).

(** The surroundings of a call: the global backend, which backends execute eagerly, and the
    current run context.  /repo/returnn/frontend/_cache.py:105-110,141. *)
Record env := mkEnv { glob : nat; eager : nat -> bool; ctx : nat }.

(** [_get_backend] of a key: /repo/returnn/frontend/_cache.py:136-141. *)
Fixpoint key_backend (e : env) (k : list kitem) : nat :=
  match k with
  | [] => glob e
  | KTensor _ (Some (_, b)) :: _ => b
  | _ :: k' => key_backend e k'
  end.

(** The leaves of a value.  /repo/returnn/frontend/_cache.py:137. *)
Fixpoint vleaves (v : value) : list value :=
  match v with
  | VSeq l => flat_map vleaves l
  | _ => [v]
  end.

(** [_get_backend] of a value: /repo/returnn/frontend/_cache.py:136-141. *)
Fixpoint leaves_backend (e : env) (l : list value) : nat :=
  match l with
  | [] => glob e
  | VTensor _ (Some (_, b)) :: _ => b
  | _ :: l' => leaves_backend e l'
  end.

(** [_transform_key_item].  [ref(None)] for a tensor without raw tensor is a TypeError, as is
    any other type.  The size tensor of a dim is only referenced if its value is not known.
    The sharing of the wrapper of the same dim is left out, as the wrappers are equal.
    /repo/returnn/frontend/_cache.py:120-133,152-155,173-185. *)
Definition transform_item (i : kitem) : res witem :=
  match i with
  | KTensor t (Some (r, _)) => Ok (WTensor t r)
  | KTensor _ None => Err TypeError
  | KDim d (Some v) _ => Ok (WDim d (Some v) None)
  | KDim d None dyn => Ok (WDim d None dyn)
  | KRaw r => Ok (WRaw r)
  | KOther => Err TypeError
  end.

(** [_transform_key]: /repo/returnn/frontend/_cache.py:102-117. *)
Definition transform_key (e : env) (k : list kitem) : res (list witem) :=
  let b := key_backend e k in
  let* items := mapM transform_item k in
  Ok (WBackend b :: (if eager e b then [] else [WCtx (ctx e)]) ++ items).

(** Whether two items have the same hash.  Hashes are assumed free of collisions otherwise.
    /repo/returnn/frontend/_cache.py:155,162-163,185,194-195. *)
Definition hsame (a b : witem) : bool :=
  match a, b with
  | WBackend x, WBackend y => Nat.eqb x y
  | WCtx x, WCtx y => Nat.eqb x y
  | WRaw x, WRaw y => raw_eqb x y
  | WTensor t _, WTensor u _ => Nat.eqb t u
  | WDim d None _, WDim f None _ => Nat.eqb d f
  | WDim _ (Some v) _, WDim _ (Some w) _ => Nat.eqb v w
  | _, _ => false
  end.

(** [==] of two items of the same hash.  [self.dyn_size_ref()] is a TypeError when the dim
    had no size tensor.  /repo/returnn/frontend/_cache.py:157-160,187-192. *)
Definition weqb (a b : witem) : res bool :=
  match a, b with
  | WBackend x, WBackend y => Ok (Nat.eqb x y)
  | WCtx x, WCtx y => Ok (Nat.eqb x y)
  | WRaw x, WRaw y => Ok (raw_eqb x y)
  | WTensor t r, WTensor u s => Ok (Nat.eqb t u && Nat.eqb r s)
  | WDim d v x, WDim f w y =>
      match v with
      | Some v' => Ok (match w with Some w' => Nat.eqb v' w' | None => false end)
      | None =>
          if Nat.eqb d f then
            match x, y with
            | Some x', Some y' => Ok (Nat.eqb x' y')
            | _, _ => Err TypeError
            end
          else Ok false
      end
  | _, _ => Ok false
  end.

(** Whether two transformed keys have the same hash.  /repo/returnn/util/lru_cache.py:296-309. *)
Fixpoint hsame_list (a b : list witem) : bool :=
  match a, b with
  | [], [] => true
  | x :: a', y :: b' => hsame x y && hsame_list a' b'
  | _, _ => false
  end.

(** [==] of tuples: the items in order, up to the first which differs.
    /repo/returnn/frontend/_cache.py:52. *)
Fixpoint weqb_list (a b : list witem) : res bool :=
  match a, b with
  | [], [] => Ok true
  | x :: a', y :: b' =>
      let* q := weqb x y in
      if q then weqb_list a' b' else Ok false
  | _, _ => Ok false
  end.

(** An entry: the transformed key and the value.  /repo/returnn/frontend/_cache.py:95. *)
Definition entry := (list witem * value)%type.

(** Dict lookup: entries of another hash are not compared.  Entries of the same hash are
    compared in the order of insertion.  /repo/returnn/util/lru_cache.py:177-191. *)
Fixpoint lookup (k : list witem) (l : list entry) : res (option entry) :=
  match l with
  | [] => Ok None
  | (k0, v) :: l' =>
      if hsame_list k0 k then
        let* q := weqb_list k0 k in
        if q then Ok (Some (k0, v)) else lookup k l'
      else lookup k l'
  end.

(** Objects which can go out of scope.  /repo/returnn/frontend/_cache.py:110,153-154,176-181. *)
Inductive obj := ODim (d : nat) | OTensor (t : nat) | ORaw (r : nat) | OCtx (c : nat).

(** Equality of objects.  /repo/returnn/frontend/_cache.py:87. *)
Definition obj_eqb (a b : obj) : bool :=
  match a, b with
  | ODim x, ODim y | OTensor x, OTensor y | ORaw x, ORaw y | OCtx x, OCtx y => Nat.eqb x y
  | _, _ => false
  end.

(** State: the entries from oldest to newest, and the dims which are gone.
    The linked list of /repo/returnn/util/lru_cache.py:71-77 is modelled in LruModel. *)
Record cache := mkCache { maxsize : nat; entries : list entry; dead : list nat }.

(** [Cache(max_size)]: /repo/returnn/frontend/_cache.py:35-40. *)
Definition new_cache (n : nat) : cache := mkCache n [] [].

(** [_cache_insert] under [cache_set]: nothing happens if the key is present; the oldest
    entry is dropped if the cache is full.
    /repo/returnn/util/lru_cache.py:108-144,168-175. *)
Definition cache_insert (k : list witem) (v : value) (c : cache) : res cache :=
  if Nat.ltb 0 (maxsize c) then
    let* f := lookup k (entries c) in
    match f with
    | Some _ => Ok c
    | None =>
        let old := if Nat.leb (maxsize c) (length (entries c)) then tl (entries c) else entries c in
        Ok (mkCache (maxsize c) (old ++ [(k, v)]) (dead c))
    end
  else Ok c.

(** [Cache.set]: /repo/returnn/frontend/_cache.py:81-95. *)
Definition cset (e : env) (k : list kitem) (v : value) (c : cache) : res cache :=
  if Nat.eqb (key_backend e k) (leaves_backend e (vleaves v)) then
    let* kt := transform_key e k in
    cache_insert kt v c
  else Err ValueError.

(** The last assignment of a dict wins.  /repo/returnn/frontend/_cache.py:64. *)
Definition dget (d : nat) (m : list (nat * nat)) : option nat :=
  fold_left (fun acc e => if Nat.eqb (fst e) d then Some (snd e) else acc) m None.

(** The dim map from the dims of the stored key to the dims of the new key.  A weak
    reference to a dim which is gone fails the assertion.
    /repo/returnn/frontend/_cache.py:56-64. *)
Fixpoint dim_map (dead : list nat) (orig new : list witem) : res (list (nat * nat)) :=
  match orig, new with
  | [], [] => Ok []
  | WDim d0 _ _ :: o', n :: n' =>
      match n with
      | WDim d _ _ =>
          if existsb (Nat.eqb d0) dead then Err AssertionError
          else
            let* m := dim_map dead o' n' in
            Ok ((d0, d) :: m)
      | _ => Err AssertionError
      end
  | _ :: o', _ :: n' => dim_map dead o' n'
  | _, _ => Err AssertionError
  end.

(** [dim_map.get(output, output)]: /repo/returnn/frontend/_cache.py:69,73-75. *)
Definition map_dim (m : list (nat * nat)) (d : nat) : nat :=
  match dget d m with Some x => x | None => d end.

(** [tree.map_structure(_map_output, value)]: the dims of the output are replaced one axis
    after the other, going through the original dims, and the raw tensor stays.
    /repo/returnn/frontend/_cache.py:66-79. *)
Fixpoint map_output (m : list (nat * nat)) (v : value) : value :=
  match v with
  | VDim d => VDim (map_dim m d)
  | VTensor dims rw => VTensor (map (map_dim m) dims) rw
  | VRaw n => VRaw n
  | VSeq l => VSeq (map (map_output m) l)
  end.

(** [Cache.get], [None] for the default: /repo/returnn/frontend/_cache.py:45-79.
    [cache_peek] does not change the order of the entries: /repo/returnn/util/lru_cache.py:177-191. *)
Definition cget (e : env) (k : list kitem) (c : cache) : res (option value) :=
  let* kt := transform_key e k in
  let* f := lookup kt (entries c) in
  match f with
  | None => Ok None
  | Some (k0, v) =>
      let* m := dim_map (dead c) k0 kt in
      Ok (Some (map_output m v))
  end.

(** The objects which an item references weakly with the callback.
    /repo/returnn/frontend/_cache.py:110,153-154,175-184. *)
Definition watched (w : witem) : list obj :=
  match w with
  | WBackend _ | WRaw _ => []
  | WCtx c => [OCtx c]
  | WTensor t r => [OTensor t; ORaw r]
  | WDim d None dyn => ODim d :: match dyn with Some r => [ORaw r] | None => [] end
  | WDim _ (Some _) _ => []
  end.

(** The dims and raw tensors kept alive by a value.  /repo/returnn/frontend/_cache.py:95. *)
Definition holds (v : value) : list obj :=
  flat_map (fun l =>
    match l with
    | VDim d => [ODim d]
    | VTensor dims rw => map ODim dims ++ match rw with Some (r, _) => [ORaw r] | None => [] end
    | _ => []
    end) (vleaves v).

(** An object goes out of scope: [_finalize_callback] pops the entries which watch it.
    Nothing happens while a cached value holds the object.
    /repo/returnn/frontend/_cache.py:87-88. *)
Definition die (o : obj) (c : cache) : cache :=
  if existsb (fun en => existsb (obj_eqb o) (holds (snd en))) (entries c) then c
  else
    mkCache (maxsize c)
      (filter (fun en => negb (existsb (fun w => existsb (obj_eqb o) (watched w)) (fst en))) (entries c))
      (match o with ODim d => d :: dead c | _ => dead c end).

(** Histories.  The surroundings can differ from call to call, and a call which raises leaves
    the cache as it is.  /repo/returnn/frontend/_cache.py:45-95. *)
Inductive op :=
| OpSet (e : env) (k : list kitem) (v : value)
| OpGet (e : env) (k : list kitem)
| OpDie (o : obj).

(** One operation.  /repo/returnn/frontend/_cache.py:45-95. *)
Definition step (c : cache) (o : op) : cache :=
  match o with
  | OpSet e k v => match cset e k v c with Ok c' => c' | Err _ => c end
  | OpGet _ _ => c
  | OpDie x => die x c
  end.

(** A history on a new cache.  /repo/returnn/frontend/_cache.py:35-95. *)
Definition run (n : nat) (ops : list op) : cache := fold_left step ops (new_cache n).
