(** Vocabulary for C33 and C34. *)
From Coq Require Import QArith Qabs.
From Verif Require Import Base.
Local Open Scope Z_scope.

(** The comparison goes from negative over zero to positive. *)
Definition monotone_cmp (cmp : Z -> Z) (low high : Z) : Prop :=
  forall i j, low <= i -> i <= j -> j < high -> Z.sgn (cmp i) <= Z.sgn (cmp j).

(** The points are those of a dictionary: no two equal keys. *)
Fixpoint distinct_keys {V} (l : list (Q * V)) : Prop :=
  match l with [] => True | (k, _) :: l' => (forall k' v', In (k', v') l' -> ~ (k' == k)%Q) /\ distinct_keys l' end.
(** [k] is at least as near to [x] as any other key; for equal distances the smaller one. *)
Definition nearest {V} (points : list (Q * V)) (x k : Q) : Prop :=
  forall k' v', In (k', v') points -> ~ (k' == k)%Q ->
    (Qabs (x - k) < Qabs (x - k'))%Q \/ ((Qabs (x - k) == Qabs (x - k'))%Q /\ (k < k')%Q).
(** Two points with no other point between them. *)
Definition neighbours {V} (points : list (Q * V)) (k1 k2 : Q) : Prop :=
  (k1 < k2)%Q /\ forall k v, In (k, v) points -> (k <= k1)%Q \/ (k2 <= k)%Q.
