(** Properties C12 and C13: splitting sequences into chunks, and collating sequences into a padded batch. *)
From Coq Require Import String.
From Verif Require Import Base ListLemmas PyDict NumbersDictModel NumbersDictSpec NumbersDictProofs BatchPipeModel ChunkModel ChunkSpec ChunkProofs.
Local Open Scope string_scope.
Local Open Scope list_scope.

(** C12: one key of one sequence: the chunks are the windows at the multiples of the step. *)
Theorem C12_chunks_are_windows : forall (X : Type) size step min (l : list X), 0 < step ->
  exists cs, chunk_list (Z.of_nat size) (Z.of_nat step) (Z.of_nat min) l = Ok cs /\ is_chunking size step min l cs /\
    forall c, In c cs -> List.length c <= size /\ min <= List.length c.
Proof.
  intros X size step min l Hs. exists (chunks_fn size step min l). split; [now apply chunk_list_fn|]. split; [now apply is_chunking_fn|].
  intros c Hc. apply filter_In in Hc. destruct Hc as [Hc Hm]. apply in_map_iff in Hc. destruct Hc as (i&<-&_). apply Nat.leb_le in Hm. split; [|exact Hm]. rewrite window_length. lia.
Qed.
Print Assumptions C12_chunks_are_windows.
Example C12_ex_chunks : chunk_list 4 3 0 [1;2;3;4;5;6;7] = Ok [[1;2;3;4]; [4;5;6;7]; [7]] /\
  chunk_list 4 3 2 [1;2;3;4;5;6;7] = Ok [[1;2;3;4]; [4;5;6;7]].
Proof. split; reflexivity. Qed.

(** C12: without a minimum size and with a step of at most the size, every frame is in some chunk, at its place. *)
Theorem C12_every_frame_is_in_a_chunk : forall (X : Type) size step min (l : list X) cs p x,
  0 < step -> step <= size -> min <= 1 ->
  chunk_list (Z.of_nat size) (Z.of_nat step) (Z.of_nat min) l = Ok cs -> nth_error l p = Some x ->
  exists i c, nth_error cs i = Some c /\ i * step <= p /\ nth_error c (p - i * step) = Some x.
Proof.
  intros X size step min l cs p x Hs Hss Hm H. rewrite chunk_list_fn in H by exact Hs. apply Ok_inj in H.
  apply (chunks_coverage size step min l cs p x Hs Hss Hm). apply is_chunking_fn; [exact Hs|now symmetry].
Qed.
Print Assumptions C12_every_frame_is_in_a_chunk.

(** C12: with the step equal to the size the chunks concatenate to the sequence; a minimum size
    can only drop an end shorter than it. *)
Theorem C12_chunks_tile_the_sequence : forall (X : Type) size min (l : list X) cs,
  0 < size -> min <= size -> chunk_list (Z.of_nat size) (Z.of_nat size) (Z.of_nat min) l = Ok cs ->
  exists rest, l = concat cs ++ rest /\ (rest <> [] -> List.length rest < min) /\ (min <= 1 -> concat cs = l).
Proof.
  intros X size min l cs Hs Hm H. rewrite chunk_list_fn in H by exact Hs. apply Ok_inj in H.
  destruct (tiling size min l cs Hs Hm) as (rest&H1&H2); [apply is_chunking_fn; [exact Hs|now symmetry]|].
  exists rest. split; [exact H1|]. split; [exact H2|]. intros H3. destruct rest as [|x rest]; [now rewrite app_nil_r in H1|].
  specialize (H2 ltac:(discriminate)). cbn in H2. lia.
Qed.
Print Assumptions C12_chunks_tile_the_sequence.
Example C12_ex_tile : chunk_list 3 3 2 [1;2;3;4;5;6;7] = Ok [[1;2;3]; [4;5;6]].
Proof. reflexivity. Qed.

(** C12: the data pipe. Every sequence is replaced by its chunks, in order: at all keys that are chunked the
    successive chunks, and the rest as it was. It fails exactly if the keys of some sequence split into different
    numbers of chunks, and has given the chunks of the sequences before until then. *)
Theorem C12_chunking_pipe : forall (X : Type) cs ct cm (size step min : string -> nat) keys (data : list (seqd X)),
  keys_to_chunk cs data keys -> keys <> [] ->
  configured cs size keys -> configured ct step keys -> configured cm min keys -> (forall k, In k keys -> 0 < step k) ->
  (forall s, In s data -> dict_ok s /\ has_frames s keys) ->
  exists groups r, chunking cs ct cm data = (concat groups, r) /\
    ((r = Ok tt /\ Forall2 (chunks_of_seq size step min keys) data groups /\
      forall s, In s data -> same_number_of_chunks size step min keys s) \/
     (r = Err AssertionError /\ (exists done rest, data = done ++ rest /\ Forall2 (chunks_of_seq size step min keys) done groups) /\
      exists s, In s data /\ ~ same_number_of_chunks size step min keys s)).
Proof. intros X cs ct cm size step min keys data Hk Hne H1 H2 H3 H4 Hs. exact (pipe_spec cs ct cm size step min keys data Hk Hne (conj H1 (conj H2 (conj H3 H4))) Hs). Qed.
Print Assumptions C12_chunking_pipe.
Definition ex_seq : seqd nat := [("data", Frames [1;2;3;4;5]); ("classes", Frames [7;8;9]); ("seq_idx", Scalar 3)].
Example C12_ex_pipe :
  let size := ND [("data", 4); ("classes", 2)]%Z None in let step := ND [("data", 2); ("classes", 1)]%Z None in
  chunking size step (ND [] (Some 0%Z)) [ex_seq] =
    ([[("data", Frames [1;2;3;4]); ("classes", Frames [7;8]); ("seq_idx", Scalar 3)];
      [("data", Frames [3;4;5]); ("classes", Frames [8;9]); ("seq_idx", Scalar 3)];
      [("data", Frames [5]); ("classes", Frames [9]); ("seq_idx", Scalar 3)]], Ok tt) /\
  snd (chunking (ND [] (Some 2%Z)) (ND [] (Some 2%Z)) (ND [] (Some 0%Z))
         [[("data", Frames [1;2;3;4]); ("classes", Frames [7])]]) = Err AssertionError.
Proof. split; reflexivity. Qed.

(** C12: a configuration that is accepted has only positive chunk sizes, or chunking is off. *)
Theorem C12_config_sizes_positive : forall cs ct size step, parse_chunking cs ct = Ok (size, step) ->
  (forall k v, at_key size k = Some v -> (0 <= v)%Z) /\
  ((exists k v, at_key size k = Some v /\ v <> 0%Z) -> forall k v, at_key size k = Some v -> (0 < v)%Z).
Proof.
  intros cs ct size step H. destruct (parse_positive _ _ _ _ H) as [H0|H0].
  - pose proof (nd_eq_num_spec size 0 H0) as Hv.
    split; [intros k v Hk; rewrite (Hv k v Hk); lia|]. intros (k&v&Hk&Hn). now apply Hv in Hk.
  - split; [intros k v Hk; specialize (H0 k v Hk); lia|]. intros _. exact H0.
Qed.
Print Assumptions C12_config_sizes_positive.
Example C12_ex_config : parse_chunking (Some (OpNum 100%Z)) None = Ok (ND [] (Some 100%Z), ND [] (Some 100%Z)) /\
  parse_chunking (Some (OpDict [("data", 10%Z); ("classes", (-1)%Z)])) None = Err AssertionError.
Proof. split; reflexivity. Qed.

(** C12: exactly which configurations are accepted, and what they mean: without a step, or with step 0, the step is the size. *)
Theorem C12_config_accepted : forall cs ct size step,
  no_number_twice cs -> no_number_twice ct -> (forall x, ct = Some x -> plain x) ->
  parse_chunking cs ct = Ok (size, step) <->
  size = match cs with None => ND [] (Some 0%Z) | Some x => as_written x end /\
  step = match ct with None => size | Some (OpNum 0%Z) => size | Some x => as_written x end /\
  (chunking_off size \/ good_chunking size step).
Proof. exact parse_accepted. Qed.
Print Assumptions C12_config_accepted.
Example C12_ex_accepted :
  parse_chunking (Some (OpNum 50%Z)) (Some (OpNum 0%Z)) = Ok (ND [] (Some 50%Z), ND [] (Some 50%Z)) /\
  parse_chunking (Some (OpDict [("data", 4%Z); ("classes", 2%Z)])) (Some (OpDict [("classes", 1%Z); ("data", 2%Z)]))
  = Ok (ND [("data", 4%Z); ("classes", 2%Z)] None, ND [("classes", 1%Z); ("data", 2%Z)] None) /\
  parse_chunking (Some (OpDict [("data", 4%Z); ("classes", 2%Z)])) (Some (OpDict [("data", 2%Z)])) = Err AssertionError.
Proof. repeat split; reflexivity. Qed.

(** C12, finding: a step given as a NumbersDict for all keys is ignored, because it is equal to [None]: chunks of 10 frames every 5
    frames become chunks of 10 frames every 10 frames. *)
Theorem C12_config_step_numbersdict_refuted :
  ~ (forall cs n size step, dict_ok (nd_dict n) -> (exists v, has_number n v /\ (0 < v)%Z) -> parse_chunking cs (Some (OpND n)) = Ok (size, step) -> step = n) /\
  parse_chunking (Some (OpND (ND [] (Some 10%Z)))) (Some (OpND (ND [] (Some 5%Z)))) = Ok (ND [] (Some 10%Z), ND [] (Some 10%Z)).
Proof.
  split; [|reflexivity]. intros H. specialize (H (Some (OpNum 10%Z)) (ND [] (Some 5%Z)) _ _ (NoDup_nil _) ltac:(exists 5%Z; split; [now right|lia]) eq_refl). discriminate.
Qed.
Print Assumptions C12_config_step_numbersdict_refuted.

(** C12: otherwise, a [NumbersDict] with keys is used as the step. *)
Theorem C12_config_step_numbersdict : forall cs n size step, nd_dict n <> [] -> (exists k v, at_key n k = Some v /\ v <> 0%Z) ->
  parse_chunking cs (Some (OpND n)) = Ok (size, step) -> step = n.
Proof.
  intros cs n size step Hn (k&v&Hk&Hv) H. unfold parse_chunking in H. apply bind_Ok in H. destruct H as (u&_&H).
  assert (E : (match nd_dict n with [] => true | _ => false end) || nd_eq n (Num 0%Z) = false).
  { apply orb_false_iff. split; [destruct (nd_dict n); congruence|]. destruct (nd_eq n (Num 0%Z)) eqn:E; [|reflexivity]. elim Hv. exact (nd_eq_num_spec n 0 E k v Hk). }
  rewrite E in H. destruct (nd_eq _ _); [apply Ok_inj in H; congruence|].
  apply bind_Ok in H. destruct H as (?&_&H). apply bind_Ok in H. destruct H as (?&_&H). apply bind_Ok in H. destruct H as (?&_&H). apply Ok_inj in H. congruence.
Qed.
Print Assumptions C12_config_step_numbersdict.

(** C12, finding: a positive step is only required for some key. A step of zero for another key is accepted,
    and then the data pipe fails with ValueError on the first sequence. *)
Theorem C12_config_step_positive_refuted :
  ~ (forall cs ct size step, parse_chunking cs ct = Ok (size, step) ->
     (exists k v, at_key size k = Some v /\ (0 < v)%Z) -> forall k v, at_key step k = Some v -> (0 < v)%Z) /\
  exists size step, parse_chunking (Some (OpDict [("data", 2%Z); ("classes", 2%Z)])) (Some (OpDict [("data", 2%Z); ("classes", 0%Z)])) = Ok (size, step) /\
    chunking size step (ND [] (Some 0%Z)) [ex_seq] = ([], Err ValueError).
Proof.
  split.
  - intros H. specialize (H (Some (OpDict [("data", 2%Z); ("classes", 2%Z)])) (Some (OpDict [("data", 2%Z); ("classes", 0%Z)])) _ _ eq_refl).
    specialize (H ltac:(exists "data", 2%Z; split; [reflexivity|lia]) "classes" 0%Z eq_refl). lia.
  - eexists _, _. split; reflexivity.
Qed.
Print Assumptions C12_config_step_positive_refuted.

(** C13: collating succeeds on every batch whose sequences have the keys of the first with data of the same kind. The
    result has for each such key exactly: the padded rows and the lengths, or the stacked values, and for the meta keys one value,
    which is the largest one for complete_frac. *)
Theorem C13_collate : forall (X : Type) (zero : X) ltb (first : seqd X) (others : list (seqd X)), total_order ltb ->
  let batch := first :: others in can_collate batch (map fst first) ->
  exists out, collate_batch zero ltb batch = Ok out /\ dict_ok out /\
    (forall k ls, In k (map fst first) -> ~ is_meta_key k -> all_frames batch k ls ->
       exists rows, In (k, CPadded rows) out /\ is_padded zero ls rows /\ In (k ++ ":seq_len", CLens (map (@List.length X) ls)) out)%string /\
    (forall k xs, In k (map fst first) -> ~ is_meta_key k -> all_scalars batch k xs -> In (k, CStack xs) out) /\
    (forall k v, (k = "num_seqs" \/ k = "epoch") -> In (k, v) first -> In (k, CSingle v) out) /\
    (forall xs, all_scalars batch "complete_frac" xs ->
       exists m, In m xs /\ (forall x, In x xs -> ltb m x = false) /\ In ("complete_frac", CSingle (Scalar m)) out) /\
    (forall k, In k (map fst out) -> In k (map fst first) \/ exists k' ls, k = (k' ++ ":seq_len")%string /\ In k' (map fst first) /\ all_frames batch k' ls).
Proof.
  intros X zero ltb first others Ho batch Hc. destruct (collate_spec zero ltb first others Hc) as (out&E&Hd&Hw). exists out.
  split; [exact E|]. split; [exact Hd|]. split; [|split; [|split; [|split]]].
  - intros k ls Hk Hm Hl. exists (pad_sequence zero ls). split; [|split; [exact (pad_spec zero ltb ls)|]]; apply Hw; exists k; (split; [exact Hk|]);
      right; right; right; (split; [exact Hm|]); exists ls; (split; [exact Hl|]); [left|right]; now split.
  - intros k xs Hk Hm Hx. apply Hw. exists k. split; [exact Hk|]. right; right; left. split; [exact Hm|]. split; [reflexivity|]. now exists xs.
  - intros k v Hk Hv. apply Hw. exists k. split; [apply in_map_iff; exists (k, v); now split|]. left.
    split; [destruct Hk as [->| ->]; unfold is_meta_key; tauto|]. split; [destruct Hk as [->| ->]; discriminate|]. split; [reflexivity|]. now exists v.
  - intros xs Hx. destruct xs as [|x xs]; [inversion Hx|]. exists (max_of ltb x xs). destruct (max_of_spec ltb x xs Ho) as [M1 M2].
    split; [exact M1|]. split; [exact M2|]. apply Hw. exists "complete_frac". split.
    + inversion Hx; subst. apply in_map_iff. exists ("complete_frac", Scalar x). now split.
    + right; left. split; [reflexivity|]. split; [reflexivity|]. now exists x, xs.
  - intros j Hj. apply in_map_iff in Hj. destruct Hj as ([j' v]&<-&Hj). apply Hw in Hj. destruct Hj as (k&Hk&W). cbn [fst].
    destruct W as [(_&_&->&_)|[(_&->&_)|[(_&->&_)|(_&ls&Hl&[[-> _]|[-> _]])]]]; try now left. right. now exists k, ls.
Qed.
Print Assumptions C13_collate.

(** C13: cutting each row at its stored length gives back the sequences, and all rows have the same length. *)
Theorem C13_padding_loses_nothing : forall (X : Type) (zero : X) ltb (first : seqd X) others out k ls, total_order ltb ->
  let batch := first :: others in can_collate batch (map fst first) -> In k (map fst first) -> ~ is_meta_key k -> all_frames batch k ls ->
  collate_batch zero ltb batch = Ok out ->
  exists rows lens, In (k, CPadded rows) out /\ In ((k ++ ":seq_len")%string, CLens lens) out /\
    map (fun '(n, row) => firstn n row) (combine lens rows) = ls /\
    forall r r', In r rows -> In r' rows -> List.length r = List.length r'.
Proof.
  intros X zero ltb first others out k ls Ho batch Hc Hk Hm Hl E.
  destruct (C13_collate X zero ltb first others Ho Hc) as (out'&E'&_&H&_). fold batch in E'. rewrite E in E'. apply Ok_inj in E'. subst out'.
  destruct (H k ls Hk Hm Hl) as (rows&H1&H2&H3). exists rows, (map (@List.length X) ls). split; [exact H1|]. split; [exact H3|].
  destruct H2 as (m&_&_&Hf). split.
  - clear - Hf. induction Hf as [|l row ls rows (E1&E2&E3) Hf IH]; [reflexivity|]. cbn [map combine]. now rewrite E2, IH.
  - assert (Hm' : forall r, In r rows -> List.length r = m).
    { clear - Hf. induction Hf as [|l row ls rows (E1&_) Hf IH]; [intros r []|]. intros r [<-|Hr]; [exact E1|now apply IH]. }
    intros r r' Hr Hr'. now rewrite !Hm'.
Qed.
Print Assumptions C13_padding_loses_nothing.
Example C13_ex : collate_batch 0 Nat.ltb
    [[("data", Frames [1;2;3]); ("seq_idx", Scalar 0); ("epoch", Scalar 1); ("complete_frac", Scalar 4)];
     [("data", Frames [5]); ("seq_idx", Scalar 1); ("epoch", Scalar 1); ("complete_frac", Scalar 9)]] =
  Ok [("data", CPadded [[1;2;3]; [5;0;0]]); ("data:seq_len", CLens [3; 1]); ("seq_idx", CStack [0; 1]);
      ("epoch", CSingle (Scalar 1)); ("complete_frac", CSingle (Scalar 9))].
Proof. reflexivity. Qed.
Example C13_ex_hyp : total_order Nat.ltb.
Proof. split; [intros; apply Nat.ltb_irrefl|]. split; intros *; rewrite ?Nat.ltb_ge, ?Nat.ltb_lt; lia. Qed.

(** C13, finding: the lengths are stored under a key that may also be a data key of the dataset; then data is lost
    although collating succeeds. *)
Theorem C13_key_clash_refuted :
  ~ (forall (first : seqd nat) others out k ls, let batch := first :: others in
     (forall s, In s batch -> dict_ok s) -> In k (map fst first) -> ~ is_meta_key k -> all_frames batch k ls ->
     collate_batch 0 Nat.ltb batch = Ok out -> exists rows, In (k, CPadded rows) out /\ is_padded 0 ls rows).
Proof.
  intros H. specialize (H [("data:seq_len", Frames [5]); ("data", Frames [1; 2])] []
    [("data:seq_len", CLens [2]); ("data:seq_len:seq_len", CLens [1]); ("data", CPadded [[1; 2]])] "data:seq_len" [[5]]). cbv zeta in H.
  destruct H as (rows&Hr&_).
  - intros s [<-|[]]. repeat constructor; cbn; intuition discriminate.
  - now left.
  - intros [H|[H|H]]; discriminate.
  - constructor; [now left|constructor].
  - reflexivity.
  - cbn in Hr. intuition discriminate.
Qed.
Print Assumptions C13_key_clash_refuted.
