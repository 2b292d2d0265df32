(** Model of the checkpoint handling: /repo/returnn/engine/base.py:63-227, 315-430, and its use in /repo/returnn/torch/engine.py:568-576, 1116-1184, 1366-1385.

    Simplifications: scores are rational numbers (no nan); printing is left out; the backend is PyTorch, so there are no ".pretrain" checkpoints. *)
From Coq Require Import String QArith.
From Verif Require Import Base PyDict LrModel.
Local Open Scope nat_scope. Local Open Scope list_scope.
Local Open Scope Z_scope.

(** python [2 ** ((n - 1).bit_length())]. /repo/returnn/util/math.py:17-19 *)
Definition bit_length (n : Z) : Z := match n with Z0 => 0 | Zpos p | Zneg p => Z.pos (Pos.size p) end.
Definition next_power_of_two (n : Z) : Z := 2 ^ bit_length (n - 1).

(** [keep_every, keep_doubles_of]. /repo/returnn/engine/base.py:351-362 *)
Definition keep_steps (last : Z) : Z * Z :=
  if last <=? 10 then (4, 5) else if last <=? 50 then (20, 5) else if last <=? 100 then (40, 10)
  else (80 * next_power_of_two (1 + last / 240), 20).
(** [for i in count(1): n = keep_every * i; if n > last: break; add(n)]; [n] is the next one. 363-367 *)
Fixpoint multiples (fuel : nat) (step n last : Z) : list Z :=
  match fuel with O => [] | S fuel' => if n >? last then [] else n :: multiples fuel' step (n + step) last end.
(** [for i in count(): n = keep_doubles_of * (2 ** i); ...]. 368-372 *)
Fixpoint doubles (fuel : nat) (n last : Z) : list Z :=
  match fuel with O => [] | S fuel' => if n >? last then [] else n :: doubles fuel' (2 * n) last end.
Definition default_keep (last : Z) : list Z :=
  let (every, doubles_of) := keep_steps last in
  (multiples (Z.to_nat last) every every last ++ doubles (Z.to_nat last) doubles_of last)%list.

(** Lexicographic order, and python [sorted] of pairs. *)
Fixpoint insert_pair (x : Q * Z) (l : list (Q * Z)) : list (Q * Z) :=
  match l with [] => [x] | y :: l' => if pair_lt y x then y :: insert_pair x l' else x :: l end.
Fixpoint sort_pairs (l : list (Q * Z)) : list (Q * Z) := match l with [] => [] | x :: l' => insert_pair x (sort_pairs l') end.

Definition qmax (x : Q) (l : list Q) : Q := fold_left (fun m y => if Qlt_bool m y then y else m) l x.
Definition qmin (x : Q) (l : list Q) : Q := fold_left (fun m y => if Qlt_bool y m then y else m) l x.

Record options := mk_options { o_last : Z; o_best : Z; o_keep : option (list Z); o_unknown : bool (* options with other names *) }.
Definition scores := dict Z (dict string Q).

(** [[v for (_, v) in ...]]: the scores with this name of all saved epochs which have it. 382-385 *)
Definition values_of (data : scores) (epochs : list Z) (key : string) : list Q :=
  flat_map (fun e => match dget data e with Some d => match dget d key with Some v => [v] | None => [] end | None => [] end) epochs.
(** Best epochs for one score: 386-406. Nothing if the saved epochs do not have it, or all have the same value. *)
Definition best_for (data : scores) (epochs : list Z) (n : Z) (key : string) : list Z :=
  match values_of data epochs key with
  | [] => []
  | v :: vs =>
      if Qeq_bool (qmin v vs) (qmax v vs) then []
      else
        map snd (firstn (Z.to_nat n)
          (sort_pairs (map (fun e => (match dget data e with Some d => match dget d key with Some v => v | None => qmax v vs end | None => qmax v vs end, e)) epochs)))
  end.
Definition score_keys (data : scores) : list string := flat_map (fun ed => dkeys (snd ed)) data.
Definition zmem (e : Z) (l : list Z) : bool := existsb (Z.eqb e) l.
(** The epochs to keep. [epochs] is sorted. 373-408 *)
Definition kept (data : scores) (epochs : list Z) (o : options) : list Z :=
  let keep := match o_keep o with Some k => k | None => default_keep (last epochs 0) end in
  let last_n := skipn (length epochs - Z.to_nat (o_last o)) epochs in
  let best := flat_map (best_for data epochs (o_best o)) (score_keys data) in
  filter (fun e => zmem e keep || zmem e last_n || zmem e best) epochs.
(** The epochs whose models are deleted. /repo/returnn/engine/base.py:325-430 *)
Definition cleanup (data : scores) (epochs : list Z) (o : options) : res (list Z) :=
  match epochs with
  | [] => Ok []
  | _ =>
      let* _ := assert_ ((1 <=? o_last o) && (0 <=? o_best o)) in
      if Z.max (o_last o) (o_best o) >=? Z.of_nat (length epochs) then Ok []
      else
        let* _ := assert_ (match score_keys data with [] => false | _ => true end) in
        let* _ := (if forallb (dhas data) epochs then Ok tt else Err KeyError) in
        let keep := kept data epochs o in
        let remove := filter (fun e => negb (zmem e keep)) epochs in
        match remove with
        | [] => Ok []
        | _ => let* _ := assert_ (negb (o_unknown o)) in Ok remove
        end
  end.

(** * The files of a training: [f_model] the epochs with a file [model.epoch.pt], [f_opt] with [model.epoch.opt.pt] *)
Record files := mk_files { f_model : list Z; f_opt : list Z }.
(** [range(1, final_epoch + 1)] *)
Definition epoch_range (final : Z) : list Z := map (fun i => Z.of_nat i + 1) (seq 0 (Z.to_nat final)).
(** /repo/returnn/engine/base.py:75-109 *)
Definition get_existing_models (f : files) (final : Z) (for_training : bool) : list Z :=
  filter (fun e => zmem e (f_model f) && (negb for_training || zmem e (f_opt f))) (epoch_range final).

(** The options about where to start; [load] and [import_model_train_epoch1] are the epoch number in the name of that model, if any ([util.model_epoch_from_filename]); the file names themselves are left out. *)
Record start_options := mk_start {
  st_train : bool; (* task == "train" *)
  st_start : option Z; (* start_epoch, None for "auto" *)
  st_load : option (option Z); (* load *)
  st_load_epoch : Z; (* load_epoch, -1 by default *)
  st_import : bool (* import_model_train_epoch1 *) }.
Inductive model_file := Checkpoint (epoch : Z) | LoadFile | ImportFile.

(** /repo/returnn/engine/base.py:123-203 *)
Definition get_epoch_model (f : files) (final : Z) (o : start_options) : res (option Z * option model_file) :=
  let* _ := match st_start o with Some s => assert_ (1 <=? s) | None => Ok tt end in
  let existing := get_existing_models f final (st_train o) in
  let* load := (match st_load o with
                | Some name_epoch => Ok (Some ((if st_load_epoch o <=? 0 then name_epoch else Some (st_load_epoch o)), LoadFile))
                | None => if st_load_epoch o >? 0 then (let* _ := assert_ (zmem (st_load_epoch o) existing) in Ok (Some (Some (st_load_epoch o), Checkpoint (st_load_epoch o)))) else Ok None
                end) in
  let import_ok := st_train o && st_import o && match st_start o with None => true | Some s => s =? 1 end in
  let epoch_model :=
    match load, (negb (st_train o) || match st_start o with Some _ => true | None => false end) with
    | Some (ep, fn), true => ((if st_train o then None else ep), Some fn)
    | _, _ =>
        match existing with
        | _ :: _ => (Some (last existing 0), Some (Checkpoint (last existing 0)))
        | [] =>
            if import_ok then (Some 0, Some ImportFile)
            else match load with Some (ep, fn) => (ep, Some fn) | None => (None, None) end
        end
    end in
  let truthy := match fst epoch_model with Some e => negb (e =? 0) | None => false end in
  match st_start o with
  | Some s =>
      if s =? 1 then Ok (if truthy then (None, None) else epoch_model)
      else if truthy then (if zmem (s - 1) existing then Ok (Some (s - 1), Some (Checkpoint (s - 1))) else Err KeyError)
      else Ok epoch_model
  | None => Ok epoch_model
  end.
(** /repo/returnn/engine/base.py:205-226 *)
Definition get_train_start_epoch (f : files) (final : Z) (o : start_options) : res Z :=
  let* em := get_epoch_model f final o in
  Ok (match fst em with None => 1 | Some e => e + 1 end).
