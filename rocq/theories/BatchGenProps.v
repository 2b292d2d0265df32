From Coq Require Import String.
From Verif Require Import Base ListLemmas PyDict NumbersDictModel NumbersDictSpec NumbersDictProofs BatchGenModel BatchGenSpec BatchGenProofs.
Local Open Scope nat_scope. Local Open Scope list_scope. Local Open Scope Z_scope.
Local Notation length := List.length.

(** C25, recurrent nets, without limit on the total number of sequences: batch generation succeeds. The wanted chunks, in order, are cut into groups, and each batch holds one group, each chunk complete and in its own slice. Each group respects all limits (frames with padding, padding, number of sequences) unless it is a single chunk. A batch is only closed if the next chunk does not fit any more. At most a rest of chunks without any frame at the very end gets no batch. *)
Theorem C25_recurrent_batches lim K cs :
  keyed lim K cs -> positive (l_batch_size lim) -> (forall w, nd_value (l_max_pad lim) = Some w -> 0 <= w) -> (forall m, l_max_seqs lim = Some m -> (0 < m)%nat) -> l_max_total lim = None ->
  exists bs groups rest,
    generate_recurrent lim cs = Ok bs /\ Forall2 (holds lim) bs groups /\
    concat groups ++ rest = filter (wanted lim K) cs /\ (forall c k, In c rest -> frames lim c k <= 0) /\
    (forall g, In g groups -> g <> [] /\ (length g = 1%nat \/ fits lim K g)) /\
    (forall l g1 g2 r, groups = l ++ g1 :: g2 :: r -> exists c g2', g2 = c :: g2' /\ ~ fits lim K (g1 ++ [c])).
Proof.
  intros (Kne&Hcs&Cl&Cr&Ck) Hpos Hpad Hms Hmt. destruct (start_ok lim Hpos Hms cs) as [-> Hbs].
  destruct (loop_facts lim K Kne Cl Cr Ck Hbs Hpad cs Hmt) with (b := new_batch) (g := @nil chunk) (total := 0%nat) (last := @None nat) as (bs&groups&rest&->&R1&R2&R3&R4&R5&_).
  - apply Forall_forall. intros c Hc. exact (Hcs c Hc).
  - apply binv_new.
  - left. cbn. lia.
  - exists bs, groups, rest. split; [reflexivity|]. split; [eapply Forall2_impl'; [|exact R1]; intros b g; now apply binv_holds|]. split; [symmetry; exact R2|]. split; [exact R3|]. rewrite Forall_forall in R4. split; [exact R4|].
    intros l g1 g2 r He. destruct rest as [|c0 rest]; [apply (R5 l g1 g2 r); now rewrite app_nil_r|apply (R5 l g1 g2 (r ++ [c0 :: rest])); rewrite He, <- app_assoc; reflexivity].
Qed.
Print Assumptions C25_recurrent_batches.

(** Three sequences of 11, 7 and 4 frames (and 5, 3, 2 labels) with at most 20 frames, where labels are not limited. *)
Definition lens (d c : Z) : ndict Z := ND [("data"%string, d); ("classes"%string, c)] None.
Definition whole (i : nat) (d c : Z) : chunk := mk_chunk i (lens 0 0) (lens d c) true false.
Definition none : ndict Z := ND [] None.
Definition lim0 (bs : ndict Z) (ms mt : option nat) : limits := mk_limits bs none (ND [] (Some 1000)) (ND [] (Some 0)) ms mt none none.
Definition ex_lim : limits := lim0 (ND [("data"%string, 20)] None) None None.
Definition ex_cs : list chunk := [whole 0 11 5; whole 1 7 3; whole 2 4 2].
Example C25_ex_hyps : keyed ex_lim ["data"; "classes"]%string ex_cs /\ positive (l_batch_size ex_lim).
Proof.
  split.
  - split; [discriminate|]. split; [|split; [reflexivity|split; [reflexivity|]]].
    + intros c Hc. cbn in Hc. assert (Hx : exists i d l, c = whole i d l) by (repeat (destruct Hc as [<-|Hc]; [do 3 eexists; reflexivity|]); destruct Hc). destruct Hx as (i&d&l&->). cbn. split; [reflexivity|]. split; [reflexivity|]. intros k. unfold has_key. cbn. split; split; try (intros (v&[H|[H|[]]]); injection H as <- _; tauto); intros [<-|[<-|[]]]; eexists; eauto.
    + intros k [(v&[])|(v&[])].
  - split; [discriminate|]. cbn. intros v [<-|[]]. reflexivity.
Qed.
Example C25_ex : option_map (map (fun b => map p_idx (b_seqs b))) (match generate_recurrent ex_lim ex_cs with Ok bs => Some bs | Err _ => None end) = Some [[0]; [1; 2]]%nat.
Proof. reflexivity. Qed.

(** C25: a limit [n] on the total number of sequences only cuts off the chunks from some point on; exactly [n + 1] sequences come before this point. *)
Theorem C25_total_limit lim K cs n :
  keyed lim K cs -> positive (l_batch_size lim) -> (forall w, nd_value (l_max_pad lim) = Some w -> 0 <= w) -> (forall m, l_max_seqs lim = Some m -> (0 < m)%nat) -> l_max_total lim = Some n ->
  exists m, generate_recurrent lim cs = generate_recurrent (no_total lim) (firstn m cs) /\
    (number_of_seqs (filter (wanted lim K) (firstn m cs)) <= S n)%nat /\ (firstn m cs = cs \/ number_of_seqs (filter (wanted lim K) (firstn m cs)) = S n).
Proof.
  intros (Kne&Hcs&Cl&Cr&Ck) Hpos Hpad Hms Hmt. destruct (start_ok lim Hpos Hms cs) as [-> Hbs].
  destruct (total_facts' lim K n cs Kne Cl Cr Ck Hbs Hpad Hmt) with (b := new_batch) (total := 0%nat) (last := @None nat) as (m&->&R1&R2); [apply Forall_forall; intros c Hc; exact (Hcs c Hc)|lia|].
  exists m. destruct (start_ok (no_total lim) Hpos Hms (firstn m cs)) as [-> _]. split; [reflexivity|]. split; [exact R2|exact R1].
Qed.
Print Assumptions C25_total_limit.
(** C25, finding: so the limit is exceeded by one sequence. *)
Theorem C25_total_limit_refuted :
  ~ (forall lim K cs bs n, keyed lim K cs -> positive (l_batch_size lim) -> l_max_total lim = Some n -> generate_recurrent lim cs = Ok bs ->
     (length (nodup Nat.eq_dec (map p_idx (concat (map b_seqs bs)))) <= n)%nat).
Proof.
  intros H. set (lim := lim0 (ND [("data"%string, 20)] None) None (Some 2%nat)).
  assert (G : exists bs, generate_recurrent lim ex_cs = Ok bs /\ length (nodup Nat.eq_dec (map p_idx (concat (map b_seqs bs)))) = 3%nat) by (eexists; split; vm_compute; reflexivity).
  destruct G as (bs&E1&E2). specialize (H lim ["data"; "classes"]%string ex_cs bs 2%nat (proj1 C25_ex_hyps) (proj2 C25_ex_hyps) eq_refl E1). rewrite E2 in H. lia.
Qed.
Print Assumptions C25_total_limit_refuted.
(** C25, finding: with chunking, of the last sequence before the cut only the first chunk is used. *)
Definition chunked (i : nat) (s e : Z) : chunk := mk_chunk i (lens s s) (lens e e) true false.
Example C25_total_limit_chunks :
  option_map (map (fun b => map p_idx (b_seqs b))) (match generate_recurrent (lim0 (ND [] (Some 10)) (Some 1%nat) (Some 1%nat)) [chunked 0 0 5; chunked 0 5 10; chunked 1 0 5; chunked 1 5 10] with Ok bs => Some bs | Err _ => None end)
  = Some [[0]; [0]; [1]]%nat.
Proof. reflexivity. Qed.

(** C25, finding: sequences without frames get lost when they come last. *)
Theorem C25_every_chunk_refuted :
  ~ (forall lim K cs bs, keyed lim K cs -> positive (l_batch_size lim) -> (forall w, nd_value (l_max_pad lim) = Some w -> 0 <= w) -> (forall m, l_max_seqs lim = Some m -> (0 < m)%nat) -> l_max_total lim = None ->
     generate_recurrent lim cs = Ok bs -> map p_idx (concat (map b_seqs bs)) = map k_idx (filter (wanted lim K) cs)).
Proof.
  intros H. specialize (H (lim0 (ND [] (Some 10)) (Some 1%nat) None) ["data"; "classes"]%string [whole 0 3 3; whole 1 0 0] [mk_batch (ND [("data"%string, 3); ("classes"%string, 3)] (Some 0)) 1 [mk_part 0 (lens 0 0) (lens 3 3) 0 (ND [] (Some 0))]]).
  assert (Hx : map p_idx [mk_part 0 (lens 0 0) (lens 3 3) 0 (ND [] (Some 0))] = [0; 1]%nat); [|discriminate]. apply H.
  - split; [discriminate|]. split; [|split; [reflexivity|split; [reflexivity|]]].
    + intros c Hc. cbn in Hc. assert (Hx : exists i d l, c = whole i d l) by (repeat (destruct Hc as [<-|Hc]; [do 3 eexists; reflexivity|]); destruct Hc). destruct Hx as (i&d&l&->). cbn. split; [reflexivity|]. split; [reflexivity|]. intros k. unfold has_key. cbn. split; split; try (intros (v&[Hv|[Hv|[]]]); injection Hv as <- _; tauto); intros [<-|[<-|[]]]; eexists; eauto.
    + intros k [(v&[])|(v&[])].
  - split; [discriminate|]. cbn. intros v [<-|[]]. reflexivity.
  - discriminate.
  - intros m [= <-]. lia.
  - reflexivity.
  - vm_compute. reflexivity.
Qed.
Print Assumptions C25_every_chunk_refuted.

(** C25: limits which no sequence could ever meet are refused. *)
Theorem C25_refuses lim cs : (exists v, In v (nd_values (l_batch_size lim)) /\ v <= 0) \/ nd_values (l_batch_size lim) = [] \/ l_max_seqs lim = Some 0%nat ->
  exists e, generate_recurrent lim cs = Err e.
Proof. apply start_refuses. Qed.
Print Assumptions C25_refuses.

(** C25, non-recurrent nets (one data stream, no limit on the total number of sequences): the batches, taken frame by frame, are all frames of all sequences in order. In each batch the parts lie one behind the other. No batch has more than [batch_size] frames, and each except possibly the last one has exactly that many, or else it is already spread over more than [max_seqs] sequences. No batch has frames of more than [max_seqs] + 1 sequences. *)
Theorem C25_nonrecurrent_batches bsize ms cs :
  0 < bsize -> (forall m, ms = Some m -> (0 < m)%nat) ->
  exists bs lst, generate_nonrec bsize ms None cs = Ok (bs ++ lst) /\ flat_map batch_frames (bs ++ lst) = flat_map chunk_frames cs /\
    (forall b, In b (bs ++ lst) -> contiguous b /\ fb_frames b = Z.of_nat (length (batch_frames b)) /\ 0 < fb_frames b <= bsize) /\
    (forall b, In b bs -> fb_frames b = bsize \/ exists m i j, ms = Some m /\ In i (map f_idx (fb_seqs b)) /\ In j (map f_idx (fb_seqs b)) /\ (i + m <= j)%nat) /\ (length lst <= 1)%nat /\
    (forall b m, In b (bs ++ lst) -> ms = Some m -> (length (nodup Nat.eq_dec (map f_idx (fb_seqs b))) <= S m)%nat).
Proof.
  intros Hb Hms. unfold generate_nonrec. destruct (Z.eqb_spec bsize 0); [lia|]. apply Z.ltb_lt in Hb as Hb'. rewrite Hb'. cbn [assert_ bind].
  assert (Hm : match ms with Some m => (0 <? m)%nat | None => true end = true) by (destruct ms as [m|]; [apply Nat.ltb_lt; auto|reflexivity]). rewrite Hm. cbn [assert_ bind].
  destruct (gen_nonrec_facts bsize ms Hb cs new_fbatch 0 None finv_new (few_new ms)) as (bs&lst&->&R1&R2&R3); [cbn; lia|]. exists bs, lst. split; [reflexivity|]. split; [now symmetry|]. rewrite Forall_forall in R1. split; [|split; [|split]].
  - intros b Hin. apply in_app_or in Hin. destruct Hin as [Hin|Hin]; [destruct (R1 b Hin) as ((A&B)&C&_); auto|]. destruct R2 as [-> |(b'&->&((A&B)&_)&C)]; [destruct Hin|]. destruct Hin as [<-|[]]. split; [exact B|]. split; [exact A|lia].
  - intros b Hin. destruct (R1 b Hin) as (_&_&[C|(m&Em&C)]&_); [now left|]. right. destruct (num_seqs_span b m) as (i&j&Hi&Hj&Hij); [now apply Hms|exact C|]. now exists m, i, j.
  - destruct R2 as [-> |(b'&->&_)]; cbn; lia.
  - intros b m Hin Em. apply in_app_or in Hin. destruct Hin as [Hin|Hin]; [destruct (R1 b Hin) as (_&_&_&C); now apply C|]. destruct R2 as [-> |(b'&->&(_&W)&_)]; [destruct Hin|]. destruct Hin as [<-|[]]. specialize (W m Em). pose proof (distinct_le b'). lia.
Qed.
Print Assumptions C25_nonrecurrent_batches.
(** /repo/tests/test_Dataset.py, test_batches_non_recurrent_1 *)
Example C25_test_non_recurrent :
  option_map (map (fun b => map (fun p => (f_idx p, f_start p, f_end p, f_offset p)) (fb_seqs b))) (match generate_nonrec 5 (Some 2%nat) None [(0%nat, 0, 11); (1%nat, 0, 11)] with Ok bs => Some bs | Err _ => None end)
  = Some [[(0%nat, 0, 5, 0)]; [(0%nat, 5, 10, 0)]; [(0%nat, 10, 11, 0); (1%nat, 0, 4, 1)]; [(1%nat, 4, 9, 0)]; [(1%nat, 9, 11, 0)]].
Proof. reflexivity. Qed.
(** C25, finding: for non-recurrent nets a batch can have one sequence more than [max_seqs]. *)
Theorem C25_nonrecurrent_max_seqs_refuted :
  ~ (forall bsize m cs bs b, generate_nonrec bsize (Some m) None cs = Ok bs -> In b bs -> (length (nodup Nat.eq_dec (map f_idx (fb_seqs b))) <= m)%nat).
Proof.
  intros H. specialize (H 100 1%nat [(0%nat, 0, 3); (1%nat, 0, 3)] _ (mk_fbatch 6 [mk_fpart 0 0 3 0; mk_fpart 1 0 3 3]) eq_refl). vm_compute in H. assert (2 <= 1)%nat by (apply H; now left). lia.
Qed.
Print Assumptions C25_nonrecurrent_max_seqs_refuted.
