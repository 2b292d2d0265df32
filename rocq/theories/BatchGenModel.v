(** Model of the dataset-level batch generation: [Dataset._generate_batches] (/repo/returnn/datasets/basic.py:1255-1353) and [Batch] (/repo/returnn/engine/batch.py:20-170).

    The chunks that [iterate_seqs] yields are given as a list. The random decisions are inputs: each chunk carries what [self.sample(seq_idx)] answers and whether [rnd_seq_drop] drops it. [max_seqs] and [max_total_num_seqs] are [None] for no limit (lines 1281, 1293). [t_start -= ctx_left] is in-place in python, on objects which are fresh for each chunk (except with MetaDataset and a seq_lens file, see DESIGN.md). *)
From Coq Require Import String.
From Verif Require Import Base PyDict NumbersDictModel.
Local Open Scope nat_scope. Local Open Scope list_scope.
Local Notation length := List.length.

(** engine/batch.py:11-46 [BatchSeqCopyPart] *)
Record part := mk_part { p_idx : nat; p_start : ndict Z; p_end : ndict Z; p_slice : nat; p_offset : ndict Z }.
(** engine/batch.py:50-62 [Batch] *)
Record batch := mk_batch { b_max : ndict Z; b_slices : nat; b_seqs : list part }.
Definition new_batch : batch := mk_batch (nd_make (OpNum 0%Z)) 0 [].
(** util/basic.py:2017-2021 *)
Definition has_values (n : ndict Z) : bool := match nd_values n with [] => false | _ => true end.
(** engine/batch.py:41-45 *)
Definition frame_length (p : part) : ndict Z := nd_sub (NumND (p_end p)) (NumND (p_start p)).
(** engine/batch.py:67-73 *)
Definition try_sequence_as_slice (b : batch) (len : ndict Z) : res (ndict Z * nat) :=
  let* m := nd_max [NumND (b_max b); NumND len] in Ok (m, S (b_slices b)).
(** engine/batch.py:23-40 and 75-92 *)
Definition add_sequence_as_slice (b : batch) (idx : nat) (start len : ndict Z) : res batch :=
  let* (m, n) := try_sequence_as_slice b len in
  let e := nd_add (NumND start) (NumND len) in
  let* _ := assert_ (has_values start) in let* _ := assert_ (has_values e) in
  Ok (mk_batch m n (b_seqs b ++ [mk_part idx start e (n - 1) (nd_make (OpNum 0%Z))])).
(** engine/batch.py:125-133 *)
Definition all_slices_num_frames (b : batch) : ndict Z := nd_mul (NumND (b_max b)) (Num (Z.of_nat (b_slices b))).
(** engine/batch.py:135-139: python [sum] starts with the number 0 *)
Definition total_num_frames (b : batch) : num_operand Z :=
  fold_left (fun acc p => NumND (nd_add acc (NumND (frame_length p)))) (b_seqs b) (Num 0%Z).

Record chunk := mk_chunk { k_idx : nat; k_start : ndict Z; k_end : ndict Z; k_sample : bool; k_drop : bool }.
Record limits := mk_limits {
  l_batch_size : ndict Z; l_max_pad : ndict Z; l_max_len : ndict Z; l_min_len : ndict Z;
  l_max_seqs : option nat; l_max_total : option nat; l_ctx_left : ndict Z; l_ctx_right : ndict Z }.

(** basic.py:1307-1308 and 1310 *)
Definition start_of (lim : limits) (c : chunk) : ndict Z := nd_sub (NumND (k_start c)) (NumND (l_ctx_left lim)).
Definition end_of (lim : limits) (c : chunk) : ndict Z := nd_add (NumND (k_end c)) (NumND (l_ctx_right lim)).
Definition length_of (lim : limits) (c : chunk) : ndict Z := nd_sub (NumND (end_of lim c)) (NumND (start_of lim c)).
(** basic.py:1311-1319: the conditions to [continue] *)
Definition skip_chunk (lim : limits) (c : chunk) : bool :=
  any_compare Z.gtb (length_of lim c) (l_max_len lim) || any_compare Z.ltb (length_of lim c) (l_min_len lim) || k_drop c.
Definition over (n : nat) (m : option nat) : bool := match m with Some m => m <? n | None => false end.
(** basic.py:1320-1332 *)
Definition must_close (lim : limits) (b : batch) (len : ndict Z) : res bool :=
  let* (dt, ds) := try_sequence_as_slice b len in
  if 1 <=? b_slices b then
    let f := nd_mul (NumND dt) (Num (Z.of_nat ds)) in
    if any_compare Z.gtb f (l_batch_size lim) then Ok true
    else if over ds (l_max_seqs lim) then Ok true
    else Ok (any_compare Z.gtb (nd_sub (NumND (nd_sub (NumND f) (total_num_frames b))) (NumND len)) (l_max_pad lim))
  else Ok false.
(** basic.py:1352-1353 *)
Definition final (b : batch) : res (list batch) :=
  let* m := max_value (all_slices_num_frames b) in Ok (if (0 <? m)%Z then [b] else []).
(** basic.py:1302-1353, the loop for recurrent nets; [last] is [last_seq_idx] *)
Fixpoint gen_recurrent (lim : limits) (cs : list chunk) (b : batch) (total : nat) (last : option nat) : res (list batch) :=
  match cs with
  | [] => final b
  | c :: cs' =>
      if negb (k_sample c) then gen_recurrent lim cs' b total last
      else if over total (l_max_total lim) then final b
      else if skip_chunk lim c then gen_recurrent lim cs' b total last
      else
        let* close := must_close lim b (length_of lim c) in
        let* b' := add_sequence_as_slice (if close then new_batch else b) (k_idx c) (start_of lim c) (length_of lim c) in
        let same := match last with Some i => k_idx c =? i | None => false end in
        let* bs := gen_recurrent lim cs' b' (if same then total else S total) (Some (k_idx c)) in
        Ok (if close then b :: bs else bs)
  end.
(** basic.py:1278-1297: the checks at the start. (A plain number [batch_size] that is 0 raises too; python's [not batch_size] on a NumbersDict is [nd_bool].) *)
Definition generate_recurrent (lim : limits) (cs : list chunk) : res (list batch) :=
  if negb (nd_bool (l_batch_size lim)) then Err OtherException else
  let* _ := assert_ (negb (any_compare Z.leb (l_batch_size lim) (nd_make (OpNum 0%Z)))) in
  let* _ := assert_ (match l_max_seqs lim with Some m => 0 <? m | None => true end) in
  gen_recurrent lim cs new_batch 0 None.

(** ** Non-recurrent nets: basic.py:1333-1346 with [add_frames] (engine/batch.py:94-114), for one data key; so all NumbersDicts are plain numbers here. *)
Record fpart := mk_fpart { f_idx : nat; f_start : Z; f_end : Z; f_offset : Z }.
Record fbatch := mk_fbatch { fb_frames : Z; fb_seqs : list fpart }.
Definition new_fbatch : fbatch := mk_fbatch 0 [].
Definition add_frames (b : fbatch) (idx : nat) (start len : Z) : fbatch :=
  mk_fbatch (fb_frames b + len) (fb_seqs b ++ [mk_fpart idx start (start + len) (fb_frames b)]).
(** engine/batch.py:141-170 [start_seq], [end_seq], [get_num_seqs] *)
Definition num_seqs (b : fbatch) : nat :=
  match map f_idx (fb_seqs b) with
  | [] => 0
  | i :: is_ => fold_left Nat.max is_ i + 1 - fold_left Nat.min is_ i
  end.
(** basic.py:1334-1346. [fuel]: the number of frames suffices. *)
Fixpoint nr_seq (fuel : nat) (bsize : Z) (max_seqs : option nat) (idx : nat) (s e : Z) (b : fbatch) : res (list fbatch * fbatch) :=
  if (s <? e)%Z then
    match fuel with
    | O => Err OutOfFuel
    | S fuel' =>
        let n := Z.min (e - s) (bsize - fb_frames b) in
        let* _ := assert_ (0 <? n)%Z in
        let b' := add_frames b idx s n in
        if (bsize <=? fb_frames b')%Z || over (num_seqs b') max_seqs then
          let* (bs, b'') := nr_seq fuel' bsize max_seqs idx (s + n) e new_fbatch in Ok (b' :: bs, b'')
        else nr_seq fuel' bsize max_seqs idx (s + n) e b'
    end
  else Ok ([], b).
(** basic.py:1302-1353 for non-recurrent nets; chunks are (seq_idx, t_start, t_end) after [sample] and with the context added *)
Fixpoint gen_nonrec (bsize : Z) (max_seqs max_total : option nat) (cs : list (nat * Z * Z)) (b : fbatch) (total : nat) (last : option nat) : res (list fbatch) :=
  match cs with
  | [] => Ok (if (0 <? fb_frames b)%Z then [b] else [])
  | (idx, s, e) :: cs' =>
      if over total max_total then Ok (if (0 <? fb_frames b)%Z then [b] else [])
      else
        let* (bs, b') := nr_seq (Z.to_nat (e - s)) bsize max_seqs idx s e b in
        let same := match last with Some i => idx =? i | None => false end in
        let* bs' := gen_nonrec bsize max_seqs max_total cs' b' (if same then total else S total) (Some idx) in
        Ok (bs ++ bs')
  end.
Definition generate_nonrec (bsize : Z) (max_seqs max_total : option nat) (cs : list (nat * Z * Z)) : res (list fbatch) :=
  if (bsize =? 0)%Z then Err OtherException else
  let* _ := assert_ (0 <? bsize)%Z in
  let* _ := assert_ (match max_seqs with Some m => 0 <? m | None => true end) in
  gen_nonrec bsize max_seqs max_total cs new_fbatch 0 None.
