(* Scores and gradients as a user thinks of them. *)
From Coq Require Import List ZArith QArith String Bool.
From Verif Require Import Base ScoreModel.
Import ListNotations.

(* what a loss is divided by: one for each entry, or custom_inv_norm_factor *)
Definition factors (l : loss) : list Q :=
  match l_custom l with Some c => c | None => map (fun _ => 1%Q) (l_entries l) end.

(* the losses of a name, in several steps *)
Definition named (k : string) (steps : list (list (string * loss))) : list loss :=
  map snd (filter (fun p => String.eqb (fst p) k) (concat steps)).

Definition loss_sum (k : string) (steps : list (list (string * loss))) : Q :=
  qsum (map d_val (flat_map l_entries (named k steps))).
Definition norm_sum (k : string) (steps : list (list (string * loss))) : Q :=
  qsum (flat_map factors (named k steps)).

(* the average of a loss over all its entries in the steps *)
Definition is_average (k : string) (steps : list (list (string * loss))) (q : Q) : Prop :=
  ~ norm_sum k steps == 0 /\ q * norm_sum k steps == loss_sum k steps.

Definition marked_in (k : string) (steps : list (list (string * loss))) : Prop :=
  exists ls, In ls steps /\ In k (map fst ls).

(* Gradients: the losses with a scale which are no errors, times the scale; as sum or, if normalized, as mean. *)
Definition used (l : loss) : bool := negb (Qeq_bool (l_scale l) 0) && negb (l_error l).
Definition loss_grad (l : loss) (i : nat) : Q :=
  l_scale l * (qsum (map (fun e => d_der e i) (l_entries l)) / (if l_normalized l then qsum (factors l) else 1)).
Definition step_grad (ls : list (string * loss)) (i : nat) : Q :=
  qsum (map (fun l => loss_grad l i) (filter used (map snd ls))).

Section Learn.
Context {W B : Type}.
Variable marked : W -> B -> list (string * loss).
Variable update : nat -> W -> grad -> W.

(* the gradient of several batches with the same weights *)
Definition group_grad (w : W) (bs : list (batch B)) : grad :=
  fun i => qsum (map (fun b => step_grad (marked w (b_data b)) i) bs).

(* Training where batches are collected until there are enough for an update: the weights used for each batch, and the
   weights at the end. *)
Fixpoint learn (accum : nat -> Z) (step : nat) (w : W) (pending bs : list (batch B)) : list W * W :=
  match bs with
  | [] => ([], w)
  | b :: bs =>
    let pending := pending ++ [b] in
    let r := if (accum step <=? Z.of_nat (List.length pending))%Z
             then learn accum (S step) (update step w (group_grad w pending)) [] bs
             else learn accum (S step) w pending bs in
    (w :: fst r, snd r)
  end.

(* one update for each group, at its last step *)
Fixpoint learn_groups (step : nat) (w : W) (gs : list (list (batch B))) : W :=
  match gs with
  | [] => w
  | g :: gs => learn_groups (step + List.length g) (update (step + List.length g - 1) w (group_grad w g)) gs
  end.

Definition steps_of (ws : list W) (bs : list (batch B)) : list (list (string * loss)) :=
  map (fun p => marked (fst p) (b_data (snd p))) (combine ws bs).

End Learn.

(* Losses which are computed for each sequence on its own: their names, the entries, custom_inv_norm_factor and options. *)
Record seq_losses {W S : Type} := {
  q_names : list string;
  q_entries : W -> string -> S -> list dual;
  q_custom : string -> option (S -> list Q);
  q_scale : string -> Q; q_error : string -> bool; q_normalized : string -> bool }.
Arguments seq_losses : clear implicits.

Definition of_batch {W S} (q : seq_losses W S) (w : W) (seqs : list S) : list (string * loss) :=
  map (fun k => (k, {| l_entries := flat_map (q_entries q w k) seqs; l_scale := q_scale q k; l_error := q_error q k;
                       l_normalized := q_normalized q k;
                       l_custom := option_map (fun f => flat_map f seqs) (q_custom q k) |})) (q_names q).

(* the norm factor of a loss for some sequences *)
Definition seqs_norm {W S} (q : seq_losses W S) (w : W) (k : string) (seqs : list S) : Q :=
  qsum (flat_map (fun s => match q_custom q k with Some f => f s | None => map (fun _ => 1%Q) (q_entries q w k s) end) seqs).
