(** What packing by a mask and back should give. *)
From Verif Require Import Base TensorModel TensorSpec MatmulSpec ReshapeSpec.
Local Open Scope nat_scope.

(** The mask is true here. *)
Definition on (mask : tensor) (env : nat -> nat) : Prop := value mask env <> 0%Z.
(** [k] numbers the places where [P] holds, from 0 to [n] - 1, in the order of their positions: the last of the dims is the
    fastest. *)
Definition numbering (size : nat -> nat) (P : (nat -> nat) -> Prop) (ds : list dim) (k : (nat -> nat) -> nat) (n : nat) : Prop :=
  (forall env, inside size env ds -> P env -> k env < n) /\
  (forall e e', inside size e ds -> inside size e' ds -> P e -> P e' ->
     (k e < k e' <-> position size ds e 0 < position size ds e' 0)) /\
  (forall j, j < n -> exists env, inside size env ds /\ P env /\ k env = j).
Definition set_size (size : nat -> nat) (c n : nat) : nat -> nat := fun x => if x =? c then n else size x.
(** [r] has the entries of [t] where the mask is true, one after the other over [out], and all other dims of [t]. *)
Definition selected (size : nat -> nat) (t mask : tensor) (ds : list dim) (out : dim) (r : tensor) (k : (nat -> nat) -> nat) (n : nat) : Prop :=
  numbering size (on mask) ds k n /\ well (set_size size (d_base out) n) r /\
  dims r = out :: filter (fun d => negb (mem d (dims mask))) (dims t) /\
  forall env, inside size env (dims t) -> on mask env -> value r (with_index env (d_base out) (k env)) = value t env.
(** [ds] are the dims of the mask, in some order. *)
Definition mask_dims (mask : tensor) (ds : list dim) : Prop := Permutation (bases ds) (bases (dims mask)) /\ ds <> [].
(** The dims of a tensor that is put back: those of the mask, and the others. *)
Definition scatter_dims (source mask : tensor) (ds : list dim) (in_ : dim) : list dim :=
  ds ++ filter (fun d => negb (mem d (dims mask)) && negb (deq d in_)) (dims source).
(** The mask is true here, and it is not in the padding. [valid] is about the indices of the dims of the mask, in its order. *)
Definition on_valid (valid : list nat -> bool) (mask : tensor) (env : nat -> nat) : Prop :=
  on mask env /\ valid (map env (bases (dims mask))) = true.
(** [r] has the entries of the source in their order where [P] holds, and those of the backup elsewhere, or zeros. *)
Definition scattered (size : nat -> nat) (source : tensor) (backup : option tensor) (P : (nat -> nat) -> Prop) (ods : list dim) (in_ : dim) (r : tensor)
    (k : (nat -> nat) -> nat) : Prop :=
  well size r /\ dims r = ods /\
  forall env, inside size env (dims r) ->
    (P env -> value r env = value source (with_index env (d_base in_) (k env))) /\
    (~ P env -> value r env = match backup with Some b => value b env | None => 0%Z end).
(** The source has the packed dim, of [m] entries, and none of the dims of the mask; the backup has no further dims. *)
Definition a_source (size : nat -> nat) (source mask : tensor) (in_ : dim) (m : nat) : Prop :=
  well (set_size size (d_base in_) m) source /\ In (d_base in_) (bases (dims source)) /\
  forall c, In c (bases (dims source)) -> ~ In c (bases (dims mask)).
Definition a_backup (size : nat -> nat) (backup : option tensor) (ds : list dim) : Prop :=
  match backup with Some b => well size b /\ incl (bases (dims b)) (bases ds) | None => True end.
