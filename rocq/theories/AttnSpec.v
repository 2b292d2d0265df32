(** What self-attention should give, for each sequence on its own. *)
From Verif Require Import Base ConvSpec AttnModel.
Local Open Scope nat_scope.

(** [torch.softmax]: as many weights, and the weight of minus infinity is zero if there is another energy. *)
Definition softmax_contract (softmax : list (option Z) -> list Z) : Prop :=
  (forall l, length (softmax l) = length l) /\
  forall l k, l <> [] -> softmax (map Some l ++ repeat None k) = softmax (map Some l) ++ repeat 0%Z k.

Section Attention.
Context {X Q K : Type}.
Variables (fq : X -> Q) (fk : X -> K) (fv : X -> Z) (energy : nat -> nat -> Q -> K -> Z) (softmax : list (option Z) -> list Z).

Fixpoint sum_products (ws vs : list Z) : Z :=
  match ws, vs with
  | w :: ws, v :: vs => (w * v + sum_products ws vs)%Z
  | _, _ => 0%Z
  end.
(** The energies of a query at position [t] with all frames from position [s] on. *)
Fixpoint energies (t s : nat) (q : Q) (frames : list X) : list Z :=
  match frames with
  | [] => []
  | x :: frames => energy t s q (fk x) :: energies t (S s) q frames
  end.
(** The frame [x] at position [t] attends to these frames. *)
Definition attend (t : nat) (x : X) (frames : list X) : Z := sum_products (softmax (map Some (energies t 0 (fq x) frames))) (map fv frames).
(** Each frame attends to all frames. *)
Definition attend_all (x : list X) : list Z := map (fun tx => attend (fst tx) (snd tx) x) (combine (seq 0 (length x)) x).
(** Each frame attends to itself and the ones before. *)
Fixpoint attend_past (before : list X) (x : list X) : list Z :=
  match x with
  | [] => []
  | y :: x => attend (length before) y (before ++ [y]) :: attend_past (before ++ [y]) x
  end.

(** A state with the frames of these sequences, which all have [n] frames, or the given lengths. *)
Definition holds (st : @state K) (xs : list (list X)) : Prop :=
  match accum_axis st with
  | Static n => Forall (fun x => length x = n) xs /\ k_accum st = map (map fk) xs /\ v_accum st = map (map fv) xs
  | Dynamic lens => padded (map (map fk) xs) lens (k_accum st) /\ padded (map (map fv) xs) lens (v_accum st)
  end.
(** A batch of sequences as a padded tensor, or a tensor without padding. *)
Definition batch_of (a : axis) (rows : list (list X)) (xs : list (list X)) : Prop :=
  match a with
  | Static n => Forall (fun x => length x = n) xs /\ rows = xs
  | Dynamic lens => padded xs lens rows
  end.
(** The results for these sequences, any value after the end. *)
Definition results_for (xs : list (list X)) (f : list X -> list Z) (out : list (list Z)) : Prop :=
  Forall2 (fun x o => exists junk, o = f x ++ junk) xs out.
(** The frames of the next steps: [ys] has for each sequence its frames, one per step. *)
Definition steps_of (steps : list (list X)) (ys : list (list X)) : Prop :=
  Forall (fun y => length y = length steps) ys /\
  forall i xs, nth_error steps i = Some xs -> Forall2 (fun y x => nth_error y i = Some x) ys xs.
End Attention.

(** * Rotations *)
Section Rope.
Context {R : Type}.
Variables (zero one : R) (add mul sub : R -> R -> R) (opp : R -> R).
(** The sines and cosines of the angles of positions and their differences: [sin i f] for position [i], [dsin d f] for a
    difference; with the addition theorem. *)
Definition angles (half : nat) (sin cos : nat -> nat -> R) (dsin dcos : Z -> nat -> R) : Prop :=
  forall i j f, f < half ->
    add (mul (cos i f) (cos j f)) (mul (sin i f) (sin j f)) = dcos (Z.of_nat i - Z.of_nat j)%Z f /\
    sub (mul (sin i f) (cos j f)) (mul (cos i f) (sin j f)) = dsin (Z.of_nat i - Z.of_nat j)%Z f.
(** For each pair of features: the product of the query, rotated by the angle of the difference, with the key. *)
Fixpoint relative_energy (dsin dcos : nat -> R) (f : nat) (q k : list R) : R :=
  match q, k with
  | qr :: qi :: q, kr :: ki :: k =>
      add (add (mul (dcos f) (add (mul qr kr) (mul qi ki))) (mul (dsin f) (sub (mul qr ki) (mul qi kr)))) (relative_energy dsin dcos (S f) q k)
  | _, _ => zero
  end.
End Rope.
