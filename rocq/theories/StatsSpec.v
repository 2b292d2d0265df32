(** What C27 is about: mean, variance, minimum and maximum of a list. *)
From Coq Require Import QArith.
From Verif Require Import Base.
Local Open Scope list_scope. Local Open Scope Q_scope.

Definition sum (l : list Q) : Q := fold_right Qplus 0 l.
Definition count (l : list Q) : Q := inject_Z (Z.of_nat (length l)).
Definition is_mean (l : list Q) (m : Q) : Prop := m * count l == sum l.
(** the average squared distance to the mean *)
Definition is_variance (l : list Q) (v : Q) : Prop := exists m, is_mean l m /\ v * count l == sum (map (fun x => (x - m) * (x - m)) l).
Definition is_min (l : list Q) (m : Q) : Prop := In m l /\ forall x, In x l -> m <= x.
Definition is_max (l : list Q) (m : Q) : Prop := In m l /\ forall x, In x l -> x <= m.
