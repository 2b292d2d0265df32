(** Model of [CombinedDataset]: /repo/returnn/datasets/meta.py:877-1404.

    Sub-dataset number [d] (in the order of the sorted keys) is given, after its own [init_seq_order(epoch=epoch)], by the list of its corpus sequence indices in the order of the epoch; after [init_seq_order(seq_order=o)] its sequences are those with the corpus indices [o], in that order. *)
From Coq Require Import String.
From Verif Require Import Base PyDict SeqOrderModel.
Local Open Scope string_scope. Local Open Scope nat_scope. Local Open Scope list_scope.

(** [l[d] += 1], [l[d] = x] for an index in range *)
Fixpoint set_at {A} (l : list A) (d : nat) (f : A -> A) : list A :=
  match l, d with
  | [], _ => []
  | x :: l', 0 => f x :: l'
  | x :: l', S d' => x :: set_at l' d' f
  end.

(** lines 1116-1120 *)
Definition boundaries (sizes : list nat) : list nat := fold_left (fun b n => b ++ [n + last b 0]) sizes [0].
(** lines 1133-1137: [bs] are the boundaries from index [d + 1] on, [prev] is the one at [d] *)
Fixpoint find_dataset (bs : list nat) (d prev s : nat) : res (nat * nat) :=
  match bs with
  | [] => Err IndexError
  | b :: bs' => if b <=? s then find_dataset bs' (S d) b s else Ok (d, s - prev)
  end.
(** lines 1124-1139 *)
Definition to_dataset_seq_idx (bounds : list nat) (s : nat) : res (nat * nat) :=
  let* _ := assert_ (s <? last bounds 0) in
  match bounds with [] => Err IndexError | b0 :: bs => find_dataset bs 0 b0 s end.

(** lines 1072-1080 *)
Fixpoint sorted_idx_list (bounds counters order : list nat) : res (list (nat * nat)) :=
  match order with
  | [] => Ok []
  | s :: order' =>
      let* di := to_dataset_seq_idx bounds s in
      let* c := pyget counters (fst di) in
      let* l := sorted_idx_list bounds (set_at counters (fst di) S) order' in Ok ((fst di, c) :: l)
  end.
(** lines 1082-1089; [corpus] gives [get_corpus_seq_idx] *)
Fixpoint sub_orders (bounds : list nat) (corpus : list (list nat)) (acc : list (list nat)) (order : list nat) : res (list (list nat)) :=
  match order with
  | [] => Ok acc
  | s :: order' =>
      let* di := to_dataset_seq_idx bounds s in
      let* l := pyget corpus (fst di) in
      let* c := pyget l (snd di) in
      sub_orders bounds corpus (set_at acc (fst di) (fun o => o ++ [c])) order'
  end.
(** lines 1052-1099 if all numbers of sequences are known: the table of positions, the orders given to the sub-datasets, and [used_num_seqs_per_subset] *)
Definition init_known (corpus : list (list nat)) (order : list nat) : res (list (nat * nat) * list (list nat) * list nat) :=
  let bounds := boundaries (map (@List.length nat) corpus) in
  let* l := sorted_idx_list bounds (repeat 0 (List.length corpus)) order in
  let* o := sub_orders bounds corpus (repeat [] (List.length corpus)) order in
  Ok (l, o, map (@List.length nat) o).
(** lines 1348-1349: which sequence of which sub-dataset (by corpus index) is at a position *)
Definition at_position (tbl : list (nat * nat)) (orders : list (list nat)) (k : nat) : res (nat * nat) :=
  let* dj := pyget tbl k in
  let* o := pyget orders (fst dj) in
  let* c := pyget o (snd dj) in Ok (fst dj, c).

(** lines 1141-1167; [ids] is the shuffled list of dataset numbers *)
Fixpoint count_up (bounds counters ids : list nat) : res (list nat * list nat) :=
  match ids with
  | [] => Ok ([], counters)
  | d :: ids' =>
      let* c := pyget counters d in
      let* b := pyget bounds d in
      let* r := count_up bounds (set_at counters d S) ids' in Ok (c + b :: fst r, snd r)
  end.
(** lines 1141-1175. The shuffle is a parameter. The configured [partition_epoch] and [repeat_epoch] are at least 1 (basic.py:154-155). *)
Definition random_dataset_order (shuffle : list nat -> list nat) (sizes : list nat) (part epoch n_shards shard rep : nat) : res (list nat) :=
  let bounds := boundaries sizes in
  let total := list_sum sizes in
  let* ids := mapM (fun s => let* di := to_dataset_seq_idx bounds s in Ok (fst di)) (seq 0 total) in
  let* r := count_up bounds (repeat 0 (List.length sizes)) (shuffle ids) in
  let* _ := assert_ (list_sum (snd r) =? total) in
  let* o := apply_partition_epoch_and_sharding (fst r) part (Some epoch) n_shards shard in
  Ok (List.concat (repeat o rep)).

(** lines 1203-1213: what is taken from one dataset with [n] sequences in an epoch *)
Definition sample_range (epoch size n : nat) : res (list nat) :=
  if n =? 0 then Err ZeroDivisionError else
  let off := ((epoch - 1) * size) mod n in
  Ok (map (fun i => i mod n) (seq off size)).
(** lines 1199-1219: per dataset (sorted by key): its key and number of sequences. The buffer is filled with zeros first; its length is the sum of all sampling sizes. *)
Fixpoint sample_ranges (sampling : dict string nat) (epoch : nat) (ds : list (string * nat)) (start : nat) : res (list nat) :=
  match ds with
  | [] => Ok []
  | (key, n) :: ds' =>
      match dget sampling key with
      | None => Err KeyError
      | Some size =>
          let* r := sample_range epoch size n in
          let* rest := sample_ranges sampling epoch ds' (start + n) in Ok (map (fun i => i + start) r ++ rest)
      end
  end.
Definition sample_buffer (sampling : dict string nat) (epoch : nat) (ds : list (string * nat)) : res (list nat) :=
  let total := list_sum (dvals sampling) in
  let* l := sample_ranges sampling epoch ds 0 in
  Ok (l ++ repeat 0 (total - List.length l)).
(** lines 1177-1230; [remap] is what [get_seq_order_for_epoch] gives for as many sequences as the buffer has *)
Definition sampling_order (sampling : dict string nat) (epoch : nat) (ds : list (string * nat)) (remap : nat -> res (list nat)) : res (list nat) :=
  let* buf := sample_buffer sampling epoch ds in
  let* r := remap (List.length buf) in
  mapM (fun i => pyget buf i) r.

(** lines 1242-1322: unknown numbers of sequences, with state [used_num_seqs_per_subset], [estimated_num_seq_per_subset] (kept over the epochs), [dataset_sorted_seq_idx_list] and that of the random generator. [sizes] are the true numbers, which show only through [is_less_than_num_seqs]. *)
Section Expand.
  Context {G : Type} (choice_p : G -> list Z -> nat * G) (choice_list : G -> list nat -> nat * G).
  Variable sizes : list nat.
  Record state := St { used : list nat; est : list Z; tbl : list (nat * nat); gen : G }.
  Definition has_more (us : list nat) (d : nat) : bool := nth d us 0 <? nth d sizes 0.
  Definition num_ds : nat := List.length sizes.
  (** lines 1250-1258 *)
  Definition first_with_more (us : list nat) : option nat := find (has_more us) (seq 0 num_ds).
  (** lines 1260-1268 *)
  Definition last_with_more (us : list nat) : option nat := find (has_more us) (rev (seq 0 num_ds)).
  Definition remaining (st : state) : list Z := map (fun eu => (fst eu - Z.of_nat (snd eu))%Z) (combine (est st) (used st)).
  (** lines 1270-1298: returns the dataset, or None if there is no more data. [numpy.random.choice] refuses negative probabilities. *)
  Fixpoint pick_random (fuel : nat) (st : state) : res (option nat * state) :=
    match fuel with
    | 0 => Err OutOfFuel
    | S fuel' =>
        let rem := remaining st in
        if (fold_right Z.add 0 rem <=? 0)%Z then
          match filter (has_more (used st)) (seq 0 num_ds) with
          | [] => Ok (None, st)
          | ne => let '(d, g) := choice_list (gen st) ne in
                  Ok (Some d, St (used st) (set_at (est st) d (fun e => e + 1)%Z) (tbl st) g)
          end
        else if existsb (fun r => r <? 0)%Z rem then Err ValueError else
          let '(d, g) := choice_p (gen st) rem in
          if has_more (used st) d then Ok (Some d, St (used st) (est st) (tbl st) g)
          else pick_random fuel' (St (used st) (set_at (est st) d (fun _ => Z.of_nat (nth d (used st) 0))) (tbl st) g)
    end.
  (** lines 1249-1319, one round *)
  Definition pick (ordering : string) (fuel : nat) (st : state) : res (option nat * state) :=
    if String.eqb ordering "default" then Ok (first_with_more (used st), st)
    else if String.eqb ordering "reversed" then Ok (last_with_more (used st), st)
    else if String.eqb ordering "random_dataset" then pick_random fuel st
    else if existsb (has_more (used st)) (seq 0 num_ds) then Err OtherException else Ok (None, st).
  Fixpoint expand (ordering : string) (fuel num_values : nat) (st : state) : res (bool * state) :=
    match num_values with
    | 0 => Ok (true, st)
    | S n =>
        let* p := pick ordering fuel st in
        match p with
        | (None, st') => Ok (false, st')
        | (Some d, st') => expand ordering fuel n (St (set_at (used st') d S) (est st') (tbl st' ++ [(d, nth d (used st') 0)]) (gen st'))
        end
    end.
  (** lines 1361-1369 *)
  Definition is_less_than_num_seqs (ordering : string) (fuel n : nat) (st : state) : res (bool * state) :=
    if n <? List.length (tbl st) then Ok (true, st) else expand ordering fuel (n - List.length (tbl st) + 1) st.
End Expand.
Arguments St {G}. Arguments used {G}. Arguments est {G}. Arguments tbl {G}. Arguments gen {G}.

(** lines 1327-1339: the ranges [sub_start, sub_end + 1) of the sub-datasets which are loaded for the positions [start, end_) *)
Definition load_ranges (num_ds : nat) (tbl : list (nat * nat)) (start end_ : nat) : list (nat * (nat * nat)) :=
  let requested := pyslice tbl start end_ in
  flat_map (fun d =>
    match map snd (filter (fun s => fst s =? d) requested) with
    | [] => []
    | j :: js => [(d, (fold_left Nat.min js j, fold_left Nat.max js j + 1))]
    end) (seq 0 num_ds).

(** lines 957-976: [target_lookup_table[dataset_key]] without the [None] entries: a later entry of [data_map] overwrites *)
Definition lookup_table (data_map : list ((string * string) * string)) (dk : string) : dict string string :=
  fold_left (fun t e => if String.eqb (fst (fst e)) dk then dset t (snd e) (snd (fst e)) else t) data_map [].
(** lines 1341-1354: the data of a combined sequence at a key; [get] gives the data of the sequence in its sub-dataset *)
Definition get_data {X} (data_map : list ((string * string) * string)) (dk : string) (get : string -> list X) (key : string) : list X :=
  match dget (lookup_table data_map dk) key with
  | Some sub_key => get sub_key
  | None => []
  end.
