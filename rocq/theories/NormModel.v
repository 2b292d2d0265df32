(** Model of normalization and label smoothing: /repo/returnn/frontend/normalization.py [moments], [LayerNorm], [BatchNorm] with
    /repo/returnn/torch/frontend/_backend.py [batch_norm], and /repo/returnn/frontend/label_smoothing.py.

    Numbers are rationals; the reciprocal square root is any function. A batch is the list of the sequence lengths and the list of the
    rows of the padded tensor, as in [ConvModel]; batch norm is modelled for one feature (all features are treated alike). *)
From Coq Require Import QArith Qcanon.
From Verif Require Import Base ConvModel.
Local Open Scope nat_scope.

Definition qnat (n : nat) : Qc := Q2Qc (inject_Z (Z.of_nat n)).
Definition qsum (l : list Qc) : Qc := fold_right Qcplus 0%Qc l.
Definition square (x : Qc) : Qc := (x * x)%Qc.

(** * Moments *)
(** [reduce_mean] over batch and time: _backend.py 1477-1514, dims.py 269-283. [dyn]: the time dim needs masking. An empty mean is no
    number: [None]. *)
Definition reduce_mean (dyn use_mask : bool) (lens : list nat) (rows : list (list Qc)) : option Qc :=
  let total := length lens * dim_value lens in
  if dyn && use_mask then
    let rows := map (fun nr => masked 0%Qc (fst nr) (snd nr)) (combine lens rows) in
    let n := list_sum lens in
    if n =? 0 then None else Some (qsum (concat rows) / qnat total * (qnat total / qnat n))%Qc
  else if total =? 0 then None else Some (qsum (concat rows) / qnat total)%Qc.

(** normalization.py 15-43; the number of elements: dims.py 222-266 *)
Definition moments (dyn use_mask : bool) (correction : Qc) (lens : list nat) (rows : list (list Qc)) : option (Qc * Qc) :=
  match reduce_mean dyn true lens rows with
  | None => None
  | Some mean =>
      match reduce_mean dyn use_mask lens (map (map (fun x => square (x - mean)%Qc)) rows) with
      | None => None
      | Some variance =>
          if Qc_eq_bool correction 0%Qc then Some (mean, variance)
          else
            let n := qnat (if dyn && use_mask then list_sum lens else length lens * dim_value lens) in
            if Qc_eq_bool n correction then None else Some (mean, variance * (n / (n - correction)))%Qc
      end
  end.

(** * Layer norm, normalization.py 60-82; [axis] is the static feature dim, one frame *)
Definition layer_norm (rsqrt : Qc -> Qc) (eps : Qc) (scale : list Qc) (bias : option (list Qc)) (x : list Qc) : option (list Qc) :=
  match moments false true 0%Qc [length x] [x] with
  | None => None
  | Some (mean, variance) =>
      let out := map (fun xs => (fst xs - mean) * rsqrt (variance + eps) * snd xs)%Qc (combine x scale) in
      Some (match bias with None => out | Some b => map (fun ob => fst ob + snd ob)%Qc (combine out b) end)
  end.

(** * Batch norm *)
(** normalization.py 155-201; [affine] are gamma and beta *)
Record batch_norm := { bn_running : option (Qc * Qc); bn_momentum : Qc; bn_eps : Qc; bn_affine : option (Qc * Qc); bn_use_mask : option bool }.
Definition new_batch_norm (affine : bool) (momentum eps : Qc) (track : bool) (use_mask : option bool) : batch_norm :=
  {| bn_running := if track then Some (0%Qc, 1%Qc) else None; bn_momentum := momentum; bn_eps := eps;
     bn_affine := if affine then Some (1%Qc, 0%Qc) else None; bn_use_mask := use_mask |}.
Definition with_running (m : batch_norm) (r : option (Qc * Qc)) : batch_norm :=
  {| bn_running := r; bn_momentum := bn_momentum m; bn_eps := bn_eps m; bn_affine := bn_affine m; bn_use_mask := bn_use_mask m |}.

Definition normalized (rsqrt : Qc -> Qc) (m : batch_norm) (mean variance : Qc) (rows : list (list Qc)) : list (list Qc) :=
  map (map (fun x => let y := ((x - mean) * rsqrt (variance + bn_eps m))%Qc in
                     match bn_affine m with None => y | Some (g, b) => (y * g + b)%Qc end)) rows.
(** the running statistics move to those of the batch *)
Definition moved_to (momentum : Qc) (run cur : Qc) : Qc := (run + (cur - run) * momentum)%Qc.

(** normalization.py 214-247, with masking *)
Definition call_masked (rsqrt : Qc -> Qc) (m : batch_norm) (train : bool) (lens : list nat) (rows : list (list Qc)) : option (batch_norm * list (list Qc)) :=
  let use_current := match bn_running m with None => true | Some _ => train end in
  if use_current then
    match moments true true 0%Qc lens rows with
    | None => None
    | Some (mean, variance) =>
        let r := match bn_running m with
                 | None => None
                 | Some (rm, rv) => Some (moved_to (bn_momentum m) rm mean, moved_to (bn_momentum m) rv variance)
                 end in
        Some (with_running m r, normalized rsqrt m mean variance rows)
    end
  else match bn_running m with Some (rm, rv) => Some (m, normalized rsqrt m rm rv rows) | None => None end.

(** _backend.py 1816-1869: [torch.nn.functional.batch_norm]. It normalizes with the biased variance of the batch, and moves the
    running variance to the unbiased one; it refuses a single value. *)
Definition call_torch (rsqrt : Qc -> Qc) (m : batch_norm) (train : bool) (rows : list (list Qc)) : option (batch_norm * list (list Qc)) :=
  let training := train || match bn_running m with None => true | _ => false end in
  let xs := concat rows in
  let n := length xs in
  if training then
    if n <=? 1 then None
    else
      let mean := (qsum xs / qnat n)%Qc in
      let variance := (qsum (map (fun x => square (x - mean)%Qc) xs) / qnat n)%Qc in
      let unbiased := (qsum (map (fun x => square (x - mean)%Qc) xs) / qnat (n - 1))%Qc in
      let r := match bn_running m with
               | None => None
               | Some (rm, rv) => Some (moved_to (bn_momentum m) rm mean, moved_to (bn_momentum m) rv unbiased)
               end in
      Some (with_running m r, normalized rsqrt m mean variance rows)
  else match bn_running m with Some (rm, rv) => Some (m, normalized rsqrt m rm rv rows) | None => None end.

(** normalization.py 203-267; the default of [use_mask] (with [rf.use_mask_default]) is [default] *)
Definition call (rsqrt : Qc -> Qc) (default : bool) (m : batch_norm) (train dyn : bool) (lens : list nat) (rows : list (list Qc)) : option (batch_norm * list (list Qc)) :=
  let use_mask := if dyn then match bn_use_mask m with None => default | Some b => b end else false in
  if use_mask then call_masked rsqrt m train lens rows else call_torch rsqrt m train rows.

(** * Label smoothing, on one distribution (a static label dim) *)
(** label_smoothing.py 27-39; python raises an error for a division by zero *)
Definition floor_prob (smoothing : Qc) (n : nat) : res Qc := if n =? 1 then Err ZeroDivisionError else Ok (smoothing / (qnat n - 1))%Qc.
Definition label_smoothing (smoothing : Qc) (prob : list Qc) : res (list Qc) :=
  let* f := floor_prob smoothing (length prob) in
  let factor := (1 - qnat (length prob) * f)%Qc in
  Ok (map (fun p => (p * factor + f)%Qc) prob).
(** label_smoothing.py 24-26, 42-53 with [sparse_to_dense] *)
Definition smooth_one_hot (n : nat) (label : nat) (label_prob : Qc) : res (list Qc) :=
  let* other := floor_prob (1 - label_prob)%Qc n in
  Ok (map (fun i => if i =? label then label_prob else other) (seq 0 n)).
Definition label_smoothing_sparse (smoothing : Qc) (n label : nat) : res (list Qc) := smooth_one_hot n label (1 - smoothing)%Qc.

(** torch/util/scaled_gradient.py 60-71: the gradient, given that of the result; scale and shift for each label *)
Definition qabs (x : Qc) : Qc := if Qclt_le_dec x 0 then (- x)%Qc else x.
Definition scaled_gradient_ext (scale shift grad : list Qc) : list Qc :=
  let m := qsum (map qabs grad) in
  map (fun ssg => let '(sc, (sh, g)) := ssg in (g * sc + sh * m)%Qc) (combine scale (combine shift grad)).
(** label_smoothing.py 117-144: the gradient of [label_smoothed_log_prob_gradient] *)
Definition smoothed_gradient (smoothing : Qc) (exclude : list Z) (grad : list Qc) : res (list Qc) :=
  let n := length grad in
  if Qc_eq_bool smoothing 0%Qc then Ok grad
  else
    match exclude with
    | [] =>
        let* f := floor_prob smoothing n in
        let factor := (1 - qnat n * f)%Qc in
        Ok (scaled_gradient_ext (map (fun _ => factor) grad) (map (fun _ => (- f)%Qc) grad) grad)
    | _ =>
        let k := (Z.of_nat n - Z.of_nat (length exclude))%Z in
        if (k =? 1)%Z then Err ZeroDivisionError
        else
          let k := Q2Qc (inject_Z k) in
          let f := (smoothing / (k - 1))%Qc in
          let factor := (1 - k * f)%Qc in
          let mask := map (fun i => forallb (fun label => negb (Z.of_nat i =? label)%Z) exclude) (seq 0 n) in
          Ok (scaled_gradient_ext (map (fun b : bool => if b then factor else 1%Qc) mask) (map (fun b : bool => (- if b then f else 0)%Qc) mask) grad)
    end.
