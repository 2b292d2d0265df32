(** What C67 and C68 speak of. *)
From Coq Require Import String QArith.
From Verif Require Import Base PyDict PySort PostprocModel.
Local Open Scope string_scope.
Local Open Scope nat_scope.
Local Open Scope list_scope.
Local Notation length := List.length.

Section Spec.
Context {A : Type}.
Notation tdict := (tdict A).
Notation iterator := (iterator A).

(** the state of an iterator after [j] calls of [next] *)
Definition state_after {D} (nx : iterator D) (j : nat) (d : D) : D := Nat.iter j (fun d => fst (nx d)) d.
(** the result of call number [j] (from 0) *)
Definition result_of {D} (nx : iterator D) (d : D) (j : nat) : outcome A := snd (nx (state_after nx j d)).
(** the iterator gives exactly these items, and has ended then *)
Definition yields {D} (nx : iterator D) (d : D) (xs : list tdict) : Prop :=
  forall j, result_of nx d j = match nth_error xs j with Some t => Yield t | None => Stop end.
(** the iterator gives these items, and then raises an exception *)
Definition breaks {D} (nx : iterator D) (d : D) (xs : list tdict) (e : err) : Prop :=
  (forall j t, nth_error xs j = Some t -> result_of nx d j = Yield t) /\ result_of nx d (length xs) = Raise e.
(** A stream function turns items [xs] into [ys] whenever [F xs ys], whatever the iterator is that gives [xs]. *)
Definition computes (f : mapper A) (F : list tdict -> list tdict -> Prop) : Prop :=
  forall D (nx : iterator D) d xs ys, yields nx d xs -> F xs ys -> yields (m_next f D nx) (m_start f, d) ys.
(** one function after the other *)
Fixpoint in_sequence (Fs : list (list tdict -> list tdict -> Prop)) (xs ys : list tdict) : Prop :=
  match Fs with [] => ys = xs | F :: Fs' => exists zs, F xs zs /\ in_sequence Fs' zs ys end.

(** the iterator with a counter of the items that were taken from it *)
Definition counted {D} (nx : iterator D) : iterator (D * nat) :=
  fun '(d, c) => let '(d', o) := nx d in ((d', match o with Yield _ => S c | _ => c end), o).

(** ** Laplace ordering *)
Definition bin {X} (n : nat) (l : list X) (b : nat) : list X := firstn n (skipn (b * n) l).
Definition content (t : tdict) : @dict string A * option string := (t_data t, t_tag t).
(** Each bin of [n] is sorted by length, stably, up and down in turn; the fractions stay where they were. *)
Definition laplace_ordered (n : nat) (len : @dict string A -> nat) (xs ys : list tdict) : Prop :=
  map t_frac ys = map t_frac xs
  /\ forall b, stably_sorted (fun c => if Nat.odd b then (- Z.of_nat (len (fst c)))%Z else Z.of_nat (len (fst c)))
                 (map content (bin n xs b)) (map content (bin n ys b)).

(** the length of a sequence, where there is one; and the dicts that have one and a fraction *)
Definition len_of (seq_len : @dict string A -> res nat) (d : @dict string A) : nat := match seq_len d with Ok k => k | Err _ => 0 end.
Definition usable (seq_len : @dict string A -> res nat) (t : tdict) : Prop := t_frac t <> None /\ is_ok (seq_len (t_data t)) = true.

(** ** The dataset *)
Context {R : Type}.
Notation options := (options A R).

(** what a dict looks like as a sequence of the dataset *)
Definition as_seq (t : tdict) : dataset_seq A :=
  {| d_tag := t_tag t; d_data := t_data t; d_frac := match t_frac t with Some f => f | None => None end |}.

(** the results of [map_seq], called for one sequence after the other with the same random generator *)
Inductive mapped (f : map_seq_fun A R) : R -> nat -> list (string * @dict string A * option Q) -> list tdict -> Prop :=
| mapped_nil r i : mapped f r i [] []
| mapped_cons r i x xs t r' ts :
    f r i (in_dict x) = (r', Ok t) -> mapped f r' (S i) xs ts ->
    mapped f r i (x :: xs) ({| t_data := t_data t;
                               t_frac := match t_frac t with None => option_map Some (snd x) | Some c => Some c end;
                               t_tag := match t_tag t with None => Some (fst (fst x)) | Some c => Some c end |} :: ts).

(** The given fractions do not decrease, and are within [lo] and 1. *)
Fixpoint fracs_increase (lo : Q) (l : list (option Q)) : Prop :=
  match l with
  | [] => True
  | Some q :: l' => (lo <= q <= 1)%Q /\ fracs_increase q l'
  | None :: l' => fracs_increase lo l'
  end.
(** what is checked of the results of the functions of the user *)
Definition acceptable (o : options) (ts : list tdict) : Prop :=
  Forall (fun t => o_check o t = Ok tt /\ t_frac t <> Some None) ts
  /\ fracs_increase 0 (map (fun t => match t_frac t with Some f => f | None => None end) ts).

Fixpoint increasing (lo : nat) (idxs : list nat) : Prop :=
  match idxs with [] => True | i :: idxs' => lo <= i /\ increasing (S i) idxs' end.

(** the results of asking for the sequences [idxs] in an epoch *)
Definition epoch_results (o : options) (epoch : nat) (seq_list : option (list string)) (idxs : list nat)
    : res (list (res (option (dataset_seq A)))) :=
  let* s := init_seq_order o epoch seq_list in Ok (snd (collect_all o s idxs)).

(** the right results, if the sequences of the epoch are [ts] *)
Definition right_results (ts : list tdict) (idxs : list nat) : list (res (option (dataset_seq A))) :=
  map (fun i => Ok (option_map as_seq (nth_error ts i))) idxs.
End Spec.
