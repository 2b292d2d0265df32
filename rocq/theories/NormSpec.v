(** Specification for normalization and label smoothing. *)
From Coq Require Import QArith Qcanon.
From Verif Require Import Base NormModel.
Local Open Scope nat_scope.

(** mean and variance of some numbers, and the unbiased estimate of the variance *)
Definition mean (l : list Qc) : Qc := (qsum l / qnat (length l))%Qc.
Definition deviations (l : list Qc) : list Qc := map (fun x => square (x - mean l)%Qc) l.
Definition variance (l : list Qc) : Qc := mean (deviations l).
Definition unbiased_variance (l : list Qc) : Qc := (qsum (deviations l) / (qnat (length l) - 1))%Qc.

(** [x] normalized with mean [m] and variance [v] *)
Definition norm_of (rsqrt : Qc -> Qc) (b : batch_norm) (m v x : Qc) : Qc :=
  match bn_affine b with
  | None => ((x - m) * rsqrt (v + bn_eps b))%Qc
  | Some (gamma, beta) => ((x - m) * rsqrt (v + bn_eps b) * gamma + beta)%Qc
  end.
(** the weighted mean of the old value and the one of the batch *)
Definition mixed (momentum old cur : Qc) : Qc := ((1 - momentum) * old + momentum * cur)%Qc.
Definition between (a b x : Qc) : Prop := (a <= x)%Qc /\ (x <= b)%Qc.

(** the value after some batches, with these statistics *)
Fixpoint mixed_all (momentum old : Qc) (curs : list Qc) : Qc :=
  match curs with [] => old | c :: curs => mixed_all momentum (mixed momentum old c) curs end.

Definition distribution (p : list Qc) : Prop := Forall (fun x => (0 <= x)%Qc) p /\ qsum p = 1%Qc.
Definition one_hot (n label : nat) : list Qc := map (fun i => if i =? label then 1%Qc else 0%Qc) (seq 0 n).
Definition negated (l : list Qc) : list Qc := map Qcopp l.
Definition scaled (c : Qc) (l : list Qc) : list Qc := map (Qcmult c) l.

(** masking is used: with the option, or by default *)
Definition masks (default : bool) (b : batch_norm) : Prop := bn_use_mask b = Some true \/ (bn_use_mask b = None /\ default = true).
(** a run of training batches *)
Fixpoint train_run (rsqrt : Qc -> Qc) (default : bool) (b : batch_norm) (batches : list (list nat * list (list Qc))) : option batch_norm :=
  match batches with
  | [] => Some b
  | (lens, rows) :: batches => match call rsqrt default b true true lens rows with None => None | Some (b, _) => train_run rsqrt default b batches end
  end.

(** the labels which are smoothed, and the probability of the others *)
Definition included (exclude : list nat) (i : nat) : bool := negb (existsb (Nat.eqb i) exclude).
Definition excluded_prob (exclude : list nat) (p : list Qc) : Qc :=
  qsum (map snd (filter (fun ip => negb (included exclude (fst ip))) (combine (seq 0 (length p)) p))).
