(** Model of [ConcatSeqsDataset]: /repo/returnn/datasets/meta.py:1407-1625.

    A sequence of the list is given by its sub-sequence tags, [seq_tag.split(self.seq_tag_delim)] (never empty). The data of a sub-sequence at a key is the list of its frames or labels, here numbers. The inner dataset, after [init_seq_order(seq_list=...)], is the list of its sequences: tag and data. The extra check of the configured keys for the first sequence (lines 1568-1592) is not modelled. *)
From Coq Require Import String.
From Verif Require Import Base PyDict.
Local Open Scope string_scope. Local Open Scope nat_scope. Local Open Scope list_scope.

(** lines 1522-1531: for each sequence, the list of the indices of its sub-sequences *)
Fixpoint sub_idxs_loop (seq_list : list (list string)) (sub_seq_idx : nat) : list (list nat) * nat :=
  match seq_list with
  | [] => ([], sub_seq_idx)
  | tags :: rest =>
      let idxs := seq sub_seq_idx (List.length tags) in
      let '(l, e) := sub_idxs_loop rest (last idxs 0 + 1) in (idxs :: l, e)
  end.
Definition sub_seq_list (seq_list : list (list string)) : list string := List.concat seq_list.
Definition cur_sub_seq_idxs (seq_list : list (list string)) : res (list (list nat)) :=
  let '(l, e) := sub_idxs_loop seq_list 0 in
  let* _ := assert_ ((e =? List.length (sub_seq_list seq_list)) && (List.length seq_list =? List.length l)) in Ok l.

Record config := Config { remove_postfix : dict string Z; repeat_multiple : dict string nat; pad_narrow : dict string (string * nat) }.
Definition features := dict string (list Z).
(** [[data[-1:]] * n], concatenated *)
Definition last_frames (data : list Z) (n : nat) : list Z := List.concat (repeat (skipn (List.length data - 1) data) n).
(** lines 1605-1607 *)
Definition step_postfix (c : config) (key : string) (data : list Z) : res (list Z) :=
  match dget (remove_postfix c) key with
  | None => Ok data
  | Some p =>
      match rev data with
      | [] => Err IndexError
      | x :: front => let* _ := assert_ (x =? p)%Z in Ok (rev front)
      end
  end.
(** lines 1608-1612 *)
Definition step_repeat (c : config) (key : string) (data : list Z) : res (list Z) :=
  match dget (repeat_multiple c) key with
  | None => Ok data
  | Some 0 => Err ZeroDivisionError
  | Some m =>
      if List.length data mod m =? 0 then Ok data else
      let data' := data ++ last_frames data (m - List.length data mod m) in
      let* _ := assert_ (List.length data' mod m =? 0) in Ok data'
  end.
(** lines 1613-1623; [sub] is the sub-sequence as the inner dataset gives it *)
Definition step_pad (c : config) (sub : features) (key : string) (data : list Z) : res (list Z) :=
  match dget (pad_narrow c) key with
  | None => Ok data
  | Some (target_key, m) =>
      match dget sub target_key with
      | None => Err KeyError
      | Some target =>
          let n := List.length target * m in
          let data' := if n <? List.length data then firstn n data
                       else if List.length data <? n then data ++ last_frames data (n - List.length data) else data in
          let* _ := assert_ (List.length data' =? n) in Ok data'
      end
  end.
(** lines 1603-1624, one sub-sequence and one key *)
Definition piece (c : config) (sub : features) (is_last : bool) (key : string) : res (list Z) :=
  match dget sub key with
  | None => Err KeyError
  | Some data =>
      if is_last then Ok data else
      let* d1 := step_postfix c key data in
      let* d2 := step_repeat c key d1 in
      step_pad c sub key d2
  end.
(** lines 1592-1602 for one sub-sequence: load it and check its tag *)
Definition load_sub (inner : list (string * features)) (idx : nat) (tag : string) : res features :=
  match nth_error inner idx with
  | None => Err OtherException
  | Some (t, f) => let* _ := assert_ (String.eqb t tag) in Ok f
  end.
(** lines 1592-1625: the pieces of all sub-sequences at all keys, concatenated. (The code goes over the sub-sequences first and then over the keys.) *)
Definition collect_single_seq (c : config) (keys : list string) (inner : list (string * features)) (seq_list : list (list string)) (idxs : list (list nat)) (seq_idx : nat) : res (option features) :=
  match nth_error seq_list seq_idx, nth_error idxs seq_idx with
  | None, _ => Ok None
  | Some _, None => Err IndexError
  | Some tags, Some sub_idxs =>
      let* _ := assert_ (List.length tags =? List.length sub_idxs) in
      let* subs := mapM (fun '(i, t) => let* f := load_sub inner i t in Ok (i, f)) (combine sub_idxs tags) in
      let* fs := mapM (fun key => let* ps := mapM (fun '(i, f) => piece c f (i =? last sub_idxs 0) key) subs in Ok (key, List.concat ps)) keys in
      Ok (Some fs)
  end.
