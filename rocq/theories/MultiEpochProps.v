(** C29: a multi-epoch dataset is the concatenation of its inner epochs. *)
From Verif Require Import Base ListLemmas MultiEpochModel MultiEpochProofs.
Local Open Scope nat_scope. Local Open Scope list_scope.

(** Reading the outer epoch [e] in order gives the sequences of the inner epochs (e-1)*M+1 to e*M one after the other, then the end, however often it is read again behind the end. Only the first of the inner epochs may be empty. *)
Theorem C29_concatenation : forall (A I : Type) (inner : option nat -> option (list I) -> list A) M e, 1 <= M -> 1 <= e ->
  let epochs := map (fun j => inner (Some j) None) (seq ((e - 1) * M + 1) M) in
  Forall (fun l => l <> []) (tl epochs) ->
  let all := concat epochs in
  forall beyond, Forall (fun i => length all <= i) beyond ->
  collect_seqs inner M (m_init inner M (Some e) None) (seq 0 (length all) ++ beyond) = map (fun x => Ok (Some x)) all ++ repeat (Ok None) (length beyond).
Proof.
  intros A I inner M e HM He epochs Hne all beyond Hb. destruct M as [|M']; [lia|]. set (M := S M') in *. set (start := (e - 1) * M + 1) in *. unfold epochs in *. cbn [M seq map tl] in Hne. unfold all in *. unfold M at 1 in Hb. unfold M at 3 4. cbn [seq map concat] in *. rewrite app_length in *.
  set (first := inner (Some start) None) in *. set (rest := map (fun j => inner (Some j) None) (seq (S start) M')) in *.
  set (st := m_init inner M (Some e) None). assert (Hc : cur st = first) by reflexivity.
  rewrite seq_app, <- app_assoc. pose proof (inside inner M st first [] (seq (0 + length first) (length (concat rest)) ++ beyond) Hc) as H1. cbn [length] in H1. change (seq_idx_offset st + 0) with 0 in H1. rewrite H1. unfold good. rewrite map_app, <- app_assoc. f_equal.
  assert (Hr : rest = map (fun j => inner (Some (start + j)) None) (seq (S (epoch_offset st)) M')).
  { unfold rest. change (S (epoch_offset st)) with 1. rewrite <- (Nat.add_1_r start). generalize start as s0. clear. intros s0. generalize 1. induction M' as [|M' IH]; intros k; [reflexivity|]. cbn [seq map]. f_equal. rewrite <- IH. f_equal. f_equal. lia. }
  pose proof (next_epochs inner M M' st start (0 + length first) eq_refl eq_refl) as H2. cbv zeta in H2. rewrite <- Hr in H2. apply H2; [reflexivity|left; reflexivity|exact Hne|]. eapply Forall_impl; [|exact Hb]. intros i. cbn. lia.
Qed.
Print Assumptions C29_concatenation.

(** All outer epochs together cover the inner epochs in order, each once. *)
Theorem C29_all_epochs : forall M K, concat (map (fun e => seq ((e - 1) * M + 1) M) (seq 1 K)) = seq 1 (K * M).
Proof.
  intros M K. induction K as [|K IH]; [reflexivity|]. rewrite seq_S, map_app, concat_app, IH. cbn [map concat]. rewrite app_nil_r. replace (1 + K - 1) with K by lia. rewrite Nat.add_comm with (n := K * M). rewrite <- seq_app. f_equal. lia.
Qed.
Print Assumptions C29_all_epochs.

(** With a given non-empty order, only one inner epoch in this order is read. *)
Theorem C29_predefined_order : forall (A I : Type) (inner : option nat -> option (list I) -> list A) M e order, order <> [] ->
  let all := inner (Some ((e - 1) * M + 1)) (Some order) in
  forall beyond, Forall (fun i => length all <= i) beyond ->
  collect_seqs inner M (m_init inner M (Some e) (Some order)) (seq 0 (length all) ++ beyond) = map (fun x => Ok (Some x)) all ++ repeat (Ok None) (length beyond).
Proof.
  intros A I inner M e order Ho all beyond Hb. destruct order as [|o order]; [contradiction|]. set (st := m_init inner M (Some e) (Some (o :: order))). pose proof (inside inner M st all [] beyond eq_refl) as H1. cbn [length] in H1. change (seq_idx_offset st + 0) with 0 in H1. rewrite H1. unfold good. f_equal. apply finished; [left; reflexivity|exact Hb].
Qed.
Print Assumptions C29_predefined_order.

(** An empty inner epoch that is not the first makes the reading fail. *)
Theorem C29_empty_inner_epoch_refuted : forall (A : Type) (x y : A), exists inner : option nat -> option (list nat) -> list A,
  (forall e, 1 <= e -> e <> 2 -> inner (Some e) None <> []) /\ collect_seqs inner 3 (m_init inner 3 (Some 1) None) [0; 1] = [Ok (Some x); Err AssertionError].
Proof. intros A x y. exists (fun e _ => match e with Some 2 => [] | _ => [x] end). split; [|reflexivity]. intros [|[|[|e]]] H H'; try lia; discriminate. Qed.
Print Assumptions C29_empty_inner_epoch_refuted.

(** An empty given order is taken as none: the other inner epochs are read in their own order. *)
Theorem C29_empty_order_refuted : exists inner : option nat -> option (list nat) -> list nat,
  (forall e order, length (inner e (Some order)) = length order) /\ collect_seqs inner 2 (m_init inner 2 (Some 1) (Some [])) [0; 1; 2] = [Ok (Some 7); Ok (Some 8); Ok None].
Proof. exists (fun _ o => match o with Some l => l | None => [7; 8] end). split; [reflexivity|reflexivity]. Qed.
Print Assumptions C29_empty_order_refuted.

(** If an index is left out, the wrong sequence is returned. *)
Theorem C29_skipping_refuted : exists inner : option nat -> option (list nat) -> list nat,
  concat (map (fun j => inner (Some j) None) (seq 1 2)) = [10; 11; 20; 21] /\ collect_seqs inner 2 (m_init inner 2 (Some 1) None) [0; 3] = [Ok (Some 10); Ok (Some 20)].
Proof. exists (fun e _ => match e with Some 1 => [10; 11] | _ => [20; 21] end). split; reflexivity. Qed.
Print Assumptions C29_skipping_refuted.

Example C29_run : let inner (e : option nat) (_ : option (list nat)) := match e with Some n => repeat n n | None => [] end in
  collect_seqs inner 2 (m_init inner 2 (Some 2) None) (seq 0 9) = map (fun x => Ok (Some x)) [3; 3; 3; 4; 4; 4; 4] ++ [Ok None; Ok None].
Proof. reflexivity. Qed.
