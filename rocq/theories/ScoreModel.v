(* Model of the losses of a step (returnn/frontend/run_ctx.py), the training of an epoch and the evaluation of a dataset
   (returnn/torch/engine.py): the scores, and the gradients used for the updates. Numbers are exact rationals; inf, nan
   and rounding are not modelled, nor several workers (see DistTrainModel). *)
From Coq Require Import List ZArith QArith String Bool.
From Verif Require Import Base PyDict.
Import ListNotations.

(* a number together with its derivatives with respect to the parameters (numbered) *)
Definition grad := nat -> Q.
Record dual := Dual { d_val : Q; d_der : grad }.
Definition gzero : grad := fun _ => 0%Q.
Definition gadd (a b : grad) : grad := fun i => (a i + b i)%Q.
Definition dzero : dual := Dual 0 gzero.
Definition dadd (a b : dual) : dual := Dual (d_val a + d_val b) (gadd (d_der a) (d_der b)).
(* times a number which does not depend on the parameters *)
Definition dscale (c : Q) (a : dual) : dual := Dual (d_val a * c) (fun i => d_der a i * c)%Q.

(* run_ctx.py 397-413: Loss. The entries of the loss tensor without the padding (for a tensor without dims it is one);
   custom_inv_norm_factor does not depend on the parameters. *)
Record loss := {
  l_entries : list dual; l_scale : Q; l_error : bool; l_normalized : bool; l_custom : option (list Q) }.

Fixpoint qsum (l : list Q) : Q := match l with [] => 0 | x :: l => x + qsum l end.
Fixpoint dsum (l : list dual) : dual := match l with [] => dzero | x :: l => dadd x (dsum l) end.

(* run_ctx.py 415-424: reduce_sum over all dims *)
Definition summed_loss (l : loss) : dual := dsum (l_entries l).

Definition num (l : list dual) : Q := inject_Z (Z.of_nat (List.length l)).

(* run_ctx.py 445-453: get_inv_norm_factor *)
Definition inv_norm (l : loss) : Q :=
  match l_custom l with Some c => qsum c | None => num (l_entries l) end.

(* run_ctx.py 426-443: get_mean_loss. 1/0 is inf there and 0 here: the step fails later in this case anyway. *)
Definition mean_loss (l : loss) : dual := dscale (/ inv_norm l) (summed_loss l).

(* run_ctx.py 455-463: get_scaled_reduced_loss *)
Definition scaled_loss (l : loss) : dual :=
  dscale (l_scale l) (if l_normalized l then mean_loss l else summed_loss l).

(* run_ctx.py 374-385: total_loss; None is the float 0.0 it starts with *)
Fixpoint add_losses (t : option dual) (ls : list (string * loss)) : option dual :=
  match ls with
  | [] => t
  | (_, l) :: ls =>
    if Qeq_bool (l_scale l) 0 || l_error l then add_losses t ls
    else add_losses (Some (match t with None => scaled_loss l | Some t => dadd t (scaled_loss l) end)) ls
  end.

Definition total_loss (ls : list (string * loss)) : res (option dual) :=
  match ls with [] => Err AssertionError | _ => Ok (add_losses None ls) end.

(* run_ctx.py 237-248: mark_as_loss asserts that the name is new *)
Fixpoint mark_all (d : list (string * loss)) (ls : list (string * loss)) : res (list (string * loss)) :=
  match ls with
  | [] => Ok d
  | (k, l) :: ls => if dhas d k then Err AssertionError else mark_all (d ++ [(k, l)]) ls
  end.

(* NumbersDict without broadcast value (util/basic.py 1868-, see NumbersDictModel): a += b, where a missing number counts
   as 0; a key which is only in a is left as it is instead of adding 0. *)
Definition iadd {V} (add : V -> V -> V) (zero : V) (a b : list (string * V)) : list (string * V) :=
  fold_left (fun d p => dset d (fst p) (add (match dget d (fst p) with Some x => x | None => zero end) (snd p))) b a.

(* a / b, where a missing number counts as 1; only for a b with no keys but those of a. Python floats: division by zero is
   an exception. *)
Definition div (a b : list (string * Q)) : res (list (string * Q)) :=
  mapM (fun p => let y := match dget b (fst p) with Some y => y | None => 1 end in
          if Qeq_bool y 0 then Err ZeroDivisionError else Ok (fst p, snd p / y)%Q) a.

Definition values (ls : list (string * loss)) : list (string * Q) := map (fun p => (fst p, d_val (summed_loss (snd p)))) ls.
Definition norms (ls : list (string * loss)) : list (string * Q) := map (fun p => (fst p, inv_norm (snd p))) ls.

Section Engine.
Context {W B : Type}.
(* the losses which the train_step of the config marks for a batch, with the weights *)
Variable marked : W -> B -> list (string * loss).
(* the step of the optimizer; weights include its state. The first argument is the global train step. *)
Variable update : nat -> W -> grad -> W.
(* accum_grad_multiple_step, maybe depending on the step *)
Variable accum : nat -> Z.
(* log_grad_norm: the name and the norm *)
Variable grad_norm : option (string * (grad -> Q)).

(* A batch with the sequence lengths of each data key. pad_sequence pads to the longest. *)
Record batch := { b_data : B; b_lens : list (string * list nat) }.

Definition packed (b : batch) : list (string * Z) :=
  map (fun p => (fst p, Z.of_nat (fold_right Nat.add 0%nat (snd p)))) (b_lens b).
Definition padded (b : batch) : list (string * Z) :=
  map (fun p => (fst p, Z.of_nat (List.length (snd p) * fold_right Nat.max 0%nat (snd p)))) (b_lens b).

Record state := {
  s_w : W; s_grad : grad; s_zero : bool; s_count : Z; s_step : nat;
  s_losses : list (string * Q); s_norms : list (string * Q);
  s_packed : list (string * Z); s_padded : list (string * Z) }.

(* engine.py 391-528: one step of the loop of train_epoch. *)
Definition train_step (s : state) (b : batch) : res state :=
  let sizes := iadd Z.add 0%Z (s_packed s) (packed b) in
  let psizes := iadd Z.add 0%Z (s_padded s) (padded b) in
  let g := if s_zero s then gzero else s_grad s in
  let count := if s_zero s then 0%Z else s_count s in
  let* ls := mark_all [] (marked (s_w s) (b_data b)) in
  let* t := total_loss ls in
  let count := (count + 1)%Z in
  let perform := (accum (s_step s) <=? count)%Z in
  let* t := (match t with Some t => Ok t | None => Err OtherException end) in
  let g := gadd g (d_der t) in
  let* extra := (match grad_norm with
                 | Some (k, f) => if perform then if dhas ls k then Err AssertionError else Ok [(k, f g, 1%Q)] else Ok []
                 | None => Ok []
                 end) in
  let w := if perform then update (s_step s) (s_w s) g else s_w s in
  let v := values ls ++ map (fun p => (fst (fst p), snd (fst p))) extra in
  let n := norms ls ++ map (fun p => (fst (fst p), snd p)) extra in
  let* _ := div v n in
  Ok {| s_w := w; s_grad := g; s_zero := perform; s_count := count; s_step := S (s_step s);
        s_losses := iadd Qplus 0 (s_losses s) v; s_norms := iadd Qplus 0 (s_norms s) n;
        s_packed := sizes; s_padded := psizes |}.

Fixpoint train_steps (s : state) (bs : list batch) : res state :=
  match bs with [] => Ok s | b :: bs => let* s := train_step s b in train_steps s bs end.

(* engine.py 536-539: 1.0 - packed / padded, and 0.0 <= min <= max <= 1.0. The minimum of nothing is a ValueError. *)
Definition check_padding (packed padded : list (string * Z)) : res unit :=
  let* r := div (map (fun p => (fst p, inject_Z (snd p))) packed) (map (fun p => (fst p, inject_Z (snd p))) padded) in
  match r with
  | [] => Err ValueError
  | _ => assert_ (forallb (fun p => Qle_bool 0 (1 - snd p) && Qle_bool (1 - snd p) 1) r)
  end.

(* engine.py 322-559: train_epoch, from the first global step on, up to the scores *)
Definition train_epoch (step : nat) (w : W) (bs : list batch) : res (W * list (string * Q)) :=
  let* s := train_steps {| s_w := w; s_grad := gzero; s_zero := true; s_count := 0; s_step := step;
                           s_losses := []; s_norms := []; s_packed := []; s_padded := [] |} bs in
  let* _ := check_padding (s_packed s) (s_padded s) in
  let* scores := div (s_losses s) (s_norms s) in
  Ok (s_w s, scores).

(* engine.py 585-676: eval_model of one dataset *)
Fixpoint eval_steps (w : W) (bs : list B) (l n : list (string * Q)) : res (list (string * Q) * list (string * Q)) :=
  match bs with
  | [] => Ok (l, n)
  | b :: bs =>
    let* ls := mark_all [] (marked w b) in
    let* _ := div (values ls) (norms ls) in
    eval_steps w bs (iadd Qplus 0 l (values ls)) (iadd Qplus 0 n (norms ls))
  end.

Definition eval_model (w : W) (bs : list B) : res (list (string * Q)) :=
  let* ln := eval_steps w bs [] [] in
  let* _ := assert_ (negb (Nat.eqb (List.length bs) 0)) in
  div (fst ln) (snd ln).

End Engine.
Arguments batch : clear implicits.
Arguments state : clear implicits.
