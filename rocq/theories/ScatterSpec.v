(** What scattering means: each entry of the result is made from the values of the frames that point to it. *)
From Coq Require Import QArith Qcanon.
From Coq Require Import Permutation Sorted.
From Verif Require Import Base ScatterModel.
Local Open Scope nat_scope.

(** the values whose index is [o] *)
Definition pointing {A} (idxs : list Z) (src : list A) (o : nat) : list A :=
  map snd (filter (fun ia => (fst ia =? Z.of_nat o)%Z) (combine idxs src)).

(** an index of an out dim with [O] entries *)
Definition within (O : nat) (i : Z) : Prop := (0 <= i < Z.of_nat O)%Z.

Definition zsum (l : list Z) : Z := fold_right Z.add 0%Z l.
Definition qsum (l : list Qc) : Qc := fold_right Qcplus 0%Qc l.

(** [m] is the largest (smallest) of the values; if there are none, it is minus (plus) infinity *)
Definition largest (l : list num) (m : num) : Prop :=
  (l = [] /\ m = NegInf) \/ (In m l /\ Forall (fun a => num_leb a m = true) l).
Definition smallest (l : list num) (m : num) : Prop :=
  (l = [] /\ m = PosInf) \/ (In m l /\ Forall (fun a => num_leb m a = true) l).

(** [t] is the first frame that points to [o] with the largest value of all frames that point to [o] *)
Definition first_largest (idxs : list Z) (src : list num) (o t : nat) : Prop :=
  exists a, nth_error idxs t = Some (Z.of_nat o) /\ nth_error src t = Some a /\
    (forall t' a', nth_error idxs t' = Some (Z.of_nat o) -> nth_error src t' = Some a' ->
       num_leb a' a = true /\ (num_leb a a' = true -> t <= t')).

(** the number of the values, but at least one *)
Definition count_of {A} (l : list A) : Qc := Q2Qc (inject_Z (Z.of_nat (Nat.max 1 (length l)))).

(** every kept value is at least every value that is not kept *)
Definition top_set (vals : list Z) (mask : list bool) : Prop :=
  forall i j a b, nth_error mask i = Some true -> nth_error mask j = Some false ->
    nth_error vals i = Some a -> nth_error vals j = Some b -> (b <= a)%Z.
(** values that a mask selects, and those it does not *)
Definition selected {A} (vals : list A) (mask : list bool) : list A := map fst (filter snd (combine vals mask)).
Definition unselected {A} (vals : list A) (mask : list bool) : list A := map fst (filter (fun am => negb (snd am)) (combine vals mask)).

(** [indices] are what [torch.topk] may return for [k] *)
Definition top_indices (vals : list Z) (k : nat) (indices : list nat) : Prop :=
  length indices = k /\ NoDup indices /\ Forall (fun i => i < length vals) indices /\
  forall i j, In i indices -> j < length vals -> ~ In j indices -> (nth j vals 0 <= nth i vals 0)%Z.
(** [order] is what [torch.sort] may return: the positions in an order of descending values *)
Definition descending (vals : list Z) (order : list nat) : Prop :=
  Permutation (seq 0 (length vals)) order /\ StronglySorted (fun i j => (nth j vals 0 <= nth i vals 0)%Z) order.
