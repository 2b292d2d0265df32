(** Vocabulary for the properties of the frontend cache. *)
From Coq Require Import String ZArith QArith List Bool Arith.
From Verif Require Import Base FCacheModel.
Import ListNotations.
Local Open Scope nat_scope.

(** The number which a plain value stands for in Python. *)
Inductive is_number : raw -> Q -> Prop :=
| num_true : is_number (RBool true) (inject_Z 1)
| num_false : is_number (RBool false) (inject_Z 0)
| num_int z : is_number (RInt z) (inject_Z z)
| num_float q : is_number (RFloat q) q.

(** Plain values which are equal in Python. *)
Inductive raw_same : raw -> raw -> Prop :=
| raw_same_refl r : raw_same r r
| raw_same_num r s x y : is_number r x -> is_number s y -> (x == y)%Q -> raw_same r s.

(** Two leaves are the same up to the renaming of dims: the same tensor object with the
    same content, two dims of the same known size, or the same dim with the same size tensor. *)
Inductive same_item (rho : nat -> nat) : kitem -> kitem -> Prop :=
| same_raw r s : raw_same r s -> same_item rho (KRaw r) (KRaw s)
| same_tensor t r b b' : same_item rho (KTensor t (Some (r, b))) (KTensor t (Some (r, b')))
| same_sized d v x y : same_item rho (KDim d (Some v) x) (KDim (rho d) (Some v) y)
| same_unsized d x : rho d = d -> same_item rho (KDim d None (Some x)) (KDim d None (Some x)).

(** Renaming the dims of a value. *)
Fixpoint rename (rho : nat -> nat) (v : value) : value :=
  match v with
  | VDim d => VDim (rho d)
  | VTensor dims rw => VTensor (map rho dims) rw
  | VRaw n => VRaw n
  | VSeq l => VSeq (map (rename rho) l)
  end.

(** The backend of a leaf. *)
Definition item_backend (i : kitem) : list nat :=
  match i with KTensor _ (Some (_, b)) => [b] | _ => [] end.

(** Where a function of a key is evaluated: the backend (that of the first tensor in the
    key, or the global one), and for graph mode the run context. *)
Definition backend_of (e : env) (k : list kitem) : nat :=
  hd (glob e) (flat_map item_backend k).
Definition place (e : env) (k : list kitem) : nat * option nat :=
  let b := backend_of e k in (b, if eager e b then None else Some (ctx e)).

(** A function whose results depend on the leaves of the key only up to equality and the
    names of the dims. *)
Definition natural (F : nat * option nat -> list kitem -> value) : Prop :=
  forall p rho k k', Forall2 (same_item rho) k k' -> F p k' = rename rho (F p k).

(** The dims of a key. *)
Definition item_dims (i : kitem) : list nat := match i with KDim d _ _ => [d] | _ => [] end.
Definition key_dims (k : list kitem) : list nat := flat_map item_dims k.

(** The leaves which can be looked up: tensors have a content, and dims have sizes. *)
Definition defined (i : kitem) : Prop :=
  match i with
  | KRaw _ => True
  | KTensor _ rw => rw <> None
  | KDim _ v x => v <> None \/ x <> None
  | KOther => False
  end.

(** The backend of a value: that of the first tensor which has a content. *)
Fixpoint value_backends (v : value) : list nat :=
  match v with
  | VTensor _ (Some (_, b)) => [b]
  | VSeq l => flat_map value_backends l
  | _ => []
  end.
Definition value_backend (e : env) (v : value) : nat := hd (glob e) (value_backends v).

(** The dims which occur in a value. *)
Fixpoint value_dims (v : value) : list nat :=
  match v with
  | VDim d => [d]
  | VTensor dims _ => dims
  | VRaw _ => []
  | VSeq l => flat_map value_dims l
  end.

(** The key of an operation uses no dim which went out of scope earlier. *)
Definition op_key (o : op) : list kitem :=
  match o with OpSet _ k _ => k | OpGet _ k => k | OpDie _ => [] end.
Definition keys_alive (ops : list op) : Prop :=
  forall pre o post, ops = pre ++ o :: post ->
  forall d, In d (key_dims (op_key o)) -> ~ In (OpDie (ODim d)) pre.

(** The number of insertions of a history. *)
Definition is_set (o : op) : bool := match o with OpSet _ _ _ => true | _ => false end.
Definition is_die (o : op) : bool := match o with OpDie _ => true | _ => false end.
Definition n_sets (ops : list op) : nat := length (filter is_set ops).
