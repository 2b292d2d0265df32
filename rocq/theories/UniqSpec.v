(** Vocabulary for C36. *)
From Verif Require Import Base.
Local Open Scope Z_scope.

(** [l] consists of runs of equal values; consecutive runs have different values. *)
Definition expand (runs : list (Z * nat)) : list Z := concat (map (fun r => repeat (fst r) (S (snd r))) runs).
Fixpoint no_repeat (l : list Z) : Prop := match l with [] => True | x :: l' => (match l' with y :: _ => x <> y | [] => True end) /\ no_repeat l' end.
Definition collapses (l out : list Z) : Prop := exists runs, expand runs = l /\ map fst runs = out /\ no_repeat out.
(** The first occurrences, in the same order. *)
Inductive first_occurrences : list Z -> list Z -> Prop :=
| fo_nil : first_occurrences [] []
| fo_new l out x : first_occurrences l out -> ~ In x l -> first_occurrences (l ++ [x]) (out ++ [x])
| fo_old l out x : first_occurrences l out -> In x l -> first_occurrences (l ++ [x]) out.

Fixpoint strictly_ascending (l : list Z) : Prop := match l with [] => True | x :: l' => (match l' with y :: _ => x < y | [] => True end) /\ strictly_ascending l' end.
(** [range(start, end)] *)
Definition range (se : Z * Z) : list Z := map (fun i => fst se + Z.of_nat i) (seq 0 (Z.to_nat (snd se - fst se))).
(** Not empty, and with a gap between a range and the next one: they cannot be joined. *)
Fixpoint gaps (rs : list (Z * Z)) : Prop := match rs with [] => True | (s, e) :: rs' => s < e /\ (match rs' with (s', _) :: _ => e < s' | [] => True end) /\ gaps rs' end.
