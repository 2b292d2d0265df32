(** Model of self-attention on sequences and step by step: /repo/returnn/frontend/attention.py [dot_attention], [SelfAttention],
    [CausalSelfAttention], [RotaryPosSelfAttention], [RotaryPosCausalSelfAttention], [RelPosSelfAttention],
    [RelPosCausalSelfAttention], [_causal_self_att_step], [_apply_rope], and [cum_concat_step] of
    /repo/returnn/frontend/array_.py.

    A batch is the list of the rows of a padded tensor, as in [ConvModel] and [PadOpsModel]. One head and one feature of the values
    are looked at; frames, queries and keys are of any type. Dropout and the final projection (frame by frame) are left out. An
    energy or a weight is an integer: a code of the number. *)
From Verif Require Import Base.
From Verif Require Import ConvModel.
From Verif Require PadOpsModel.
Local Open Scope nat_scope.

(** The time dim: a static one, or one with a size per sequence. *)
Inductive axis := Static (n : nat) | Dynamic (lens : list nat).
(** [Dim.need_masking] *)
Definition sizes_for_mask (a : axis) (b : nat) : option nat := match a with Static _ => None | Dynamic lens => nth_error lens b end.
(** the size for the sequence [b] *)
Definition size_of (a : axis) (b : nat) : nat := match a with Static n => n | Dynamic lens => nth b lens 0 end.

Section Attention.
Context {X Q K : Type}.
(** [forward_qkv], 143-155: frame by frame *)
Variable fq : X -> Q.
Variable fk : X -> K.
Variable fv : X -> Z.
(** the energy of a query and a key, given their positions: see [plain], [rotary], [relative] below *)
Variable energy : nat -> nat -> Q -> K -> Z.
(** [torch.softmax] of a row; [None] is minus infinity *)
Variable softmax : list (option Z) -> list Z.

(** torch/frontend/_backend.py 571-577: [softmax] with a mask of the first [n] *)
Definition masked_softmax (n : option nat) (es : list Z) : list Z :=
  softmax (match n with
           | None => map Some es
           | Some n => map (fun ie => if fst ie <? n then Some (snd ie) else None) (combine (seq 0 (length es)) es)
           end).
(** the last [matmul] of [dot_attention], without a mask *)
Definition weighted_sum (ws vs : list Z) : Z := fold_right Z.add 0%Z (map (fun wv => (fst wv * snd wv)%Z) (combine ws vs)).
(** [dot_attention], 57-69, for one query at position [t], with all keys and values *)
Definition dot_attention (t : nat) (q : Q) (ks : list K) (vs : list Z) (n : option nat) : Z :=
  weighted_sum (masked_softmax n (map (fun sk => energy t (fst sk) q (snd sk)) (combine (seq 0 (length ks)) ks))) vs.

(** [SelfAttention.__call__], 178-184; the time dim of the keys has the same sizes *)
Definition self_attention (a : axis) (rows : list (list X)) : list (list Z) :=
  map (fun br => map (fun tx => dot_attention (fst tx) (fq (snd tx)) (map fk (snd br)) (map fv (snd br)) (sizes_for_mask a (fst br)))
                   (combine (seq 0 (length (snd br))) (snd br)))
    (combine (seq 0 (length rows)) rows).

(** [CausalSelfAttentionState], 255-270 *)
Record state := { k_accum : list (list K); v_accum : list (list Z); accum_axis : axis }.
(** [default_initial_state], 205-219, for [nb] sequences *)
Definition initial_state (nb : nat) : state := {| k_accum := repeat [] nb; v_accum := repeat [] nb; accum_axis := Static 0 |}.

(** [cum_concat_step], array_.py 546-571: [pad] with one value per sequence, with masking if the axis has a size per sequence *)
Definition cum_concat {T} (a : axis) (rows : list (list T)) (new : list T) : res (list (list T)) :=
  match new with
  | [] => Ok rows
  | zero :: _ =>
      let (handle, lens) := match a with Static n => (false, map (fun _ => n) rows) | Dynamic lens => (true, lens) end in
      let* (_, rows) := PadOpsModel.pad zero handle 0 1 (PadOpsModel.PerSeq new) lens rows in
      Ok rows
  end.
Definition axis_plus_1 (a : axis) : axis := match a with Static n => Static (n + 1) | Dynamic lens => Dynamic (map (fun n => n + 1) lens) end.

(** [_causal_self_att_step] for a single step, 231-237, and the attention. The position of the query is that of the last frame, see
    [rotary] and [relative]. [xs] has one frame per sequence. *)
Definition causal_step (xs : list X) (st : state) : res (list Z * state) :=
  let* ks := cum_concat (accum_axis st) (k_accum st) (map fk xs) in
  let* vs := cum_concat (accum_axis st) (v_accum st) (map fv xs) in
  let hist := axis_plus_1 (accum_axis st) in
  Ok (map (fun bx => let b := fst bx in
                     dot_attention (size_of hist b - 1) (fq (snd bx)) (nth b ks []) (nth b vs []) (sizes_for_mask hist b))
        (combine (seq 0 (length xs)) xs),
      {| k_accum := ks; v_accum := vs; accum_axis := hist |}).

(** for a sequence, 238-252: [hist_dim] has the size t + 1 for query [t] *)
Definition causal_sequence (a : axis) (rows : list (list X)) (st : option state) : res (list (list Z) * state) :=
  if match st with Some s => match accum_axis s with Static 0 => false | _ => true end | None => false end then Err NotImplementedError
  else
    Ok (map (fun row => map (fun tx => dot_attention (fst tx) (fq (snd tx)) (map fk row) (map fv row) (Some (fst tx + 1)))
                          (combine (seq 0 (length row)) row)) rows,
        {| k_accum := map (map fk) rows; v_accum := map (map fv) rows; accum_axis := a |}).

(** many steps, the frames of one step are one list *)
Fixpoint causal_steps (steps : list (list X)) (st : state) : res (list (list Z) * state) :=
  match steps with
  | [] => Ok ([], st)
  | xs :: steps =>
      let* (o, st) := causal_step xs st in
      let* (os, st) := causal_steps steps st in
      Ok (o :: os, st)
  end.
End Attention.

(** The energies. [CausalSelfAttention], 200-203: no positions *)
Definition plain {Q K} (dot : Q -> K -> Z) (t s : nat) (q : Q) (k : K) : Z := dot q k.
(** [RotaryPosCausalSelfAttention], 317-342: the keys are rotated by their positions, after the state is updated with the unrotated
    ones; the query by its position, which is [last_frame_position_of_dim(hist_dim)] = size - 1 in a single step *)
Definition rotary {Q K} (rotq : nat -> Q -> Q) (rotk : nat -> K -> K) (dot : Q -> K -> Z) (t s : nat) (q : Q) (k : K) : Z := dot (rotq t q) (rotk s k).
(** [RelPosCausalSelfAttention], 601-647: [matrix_ac] and [matrix_bd] with the relative position; see C91 for the shift, also in a
    single step *)
Definition relative {Q K} (ac : Q -> K -> Z) (bd : Q -> Z -> Z) (t s : nat) (q : Q) (k : K) : Z := (ac q k + bd q (Z.of_nat s - Z.of_nat t))%Z.

(** * [_apply_rope], 345-363 *)
Section Rope.
Context {R : Type}.
Variables (zero : R) (add mul sub : R -> R -> R).
(** 353: [split] of the encoding in two halves: first the sines, then the cosines (concatenated like this in
    [sinusoidal_positional_encoding], 1006-1010) *)
Definition halves (l : list R) : list R * list R := (firstn (length l / 2) l, skipn (length l / 2) l).
(** 356-358: pairs of neighboured features *)
Fixpoint pairs (l : list R) : list (R * R) :=
  match l with
  | x :: y :: l => (x, y) :: pairs l
  | _ => []
  end.
(** 359-362 *)
Definition apply_rope (x pos_enc : list R) : list R :=
  let (imag, real) := halves pos_enc in
  flat_map (fun '((xr, xi), (pi, pr)) => [sub (mul xr pr) (mul xi pi); add (mul xr pi) (mul xi pr)]) (combine (pairs x) (combine imag real)).
(** [sinusoidal_positional_encoding], 993-1010, of position [i], given the sine and cosine of the angle of feature [f] there *)
Definition encoding (sin cos : nat -> nat -> R) (half : nat) (i : nat) : list R := map (sin i) (seq 0 half) ++ map (cos i) (seq 0 half).
Definition dot (a b : list R) : R := fold_right add zero (map (fun ab => mul (fst ab) (snd ab)) (combine a b)).
End Rope.
