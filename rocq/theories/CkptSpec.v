(** Vocabulary for C23 and C38. *)
From Coq Require Import String QArith.
From Verif Require Import Base PyDict LrModel CkptModel.
Local Open Scope nat_scope. Local Open Scope list_scope.
Local Open Scope Z_scope.

(** Strictly ascending. *)
Fixpoint ascending (l : list Z) : Prop := match l with [] => True | x :: l' => (forall y, In y l' -> x < y) /\ ascending l' end.

(** * C23 *)
Definition has_score (data : scores) (e : Z) (key : string) (v : Q) : Prop := exists d, dget data e = Some d /\ dget d key = Some v.
(** The score of a saved epoch; an epoch without this score counts like the worst one. *)
Definition counts_as (data : scores) (epochs : list Z) (key : string) (e : Z) (v : Q) : Prop :=
  has_score data e key v \/
  (~ (exists w, has_score data e key w)) /\
  exists e', In e' epochs /\ has_score data e' key v /\ forall e'' v'', In e'' epochs -> has_score data e'' key v'' -> (v'' <= v)%Q.
(** Smaller is better (it is a loss), and the earlier epoch for the same score. *)
Definition better (data : scores) (epochs : list Z) (key : string) (e e' : Z) : Prop :=
  exists v v', counts_as data epochs key e v /\ counts_as data epochs key e' v' /\ ((v < v')%Q \/ (v == v')%Q /\ e < e').
(** At most [n - 1] saved epochs are better. *)
Definition among_best (data : scores) (epochs : list Z) (n : Z) (key : string) (e : Z) : Prop :=
  In e epochs /\ exists betters, Z.of_nat (length betters) < n /\ forall e', In e' epochs -> better data epochs key e' e -> In e' betters.
(** The score is not the same for all saved epochs that have it. *)
Definition distinguishes (data : scores) (epochs : list Z) (key : string) : Prop :=
  exists e e' v v', In e epochs /\ In e' epochs /\ has_score data e key v /\ has_score data e' key v' /\ ~ (v == v')%Q.
(** At most [n - 1] saved epochs are later. *)
Definition among_last (epochs : list Z) (n : Z) (e : Z) : Prop :=
  In e epochs /\ exists later, Z.of_nat (length later) < n /\ forall e', In e' epochs -> e < e' -> In e' later.
(** The option "keep", or the default: multiples of one number, and powers of two times another. *)
Definition keep_set (o : options) (last e : Z) : Prop :=
  match o_keep o with
  | Some l => In e l
  | None => e <= last /\ ((exists i, 1 <= i /\ e = fst (keep_steps last) * i) \/ (exists i, 0 <= i /\ e = snd (keep_steps last) * 2 ^ i))
  end.
