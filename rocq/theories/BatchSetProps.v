From Coq Require Import Permutation.
From Verif Require Import Base ListLemmas BatchSetModel BatchSetSpec BatchSetProofs.

(** C26: for any history of successful calls there is an order [ep] of all the batches of the generator (the order of the generator itself without shuffling), such that all answers since the last reset are those of somebody who reads [ep] from its start: nothing is skipped, repeated or lost by peeking, and [has_more] is exact. *)
Theorem C26_reads_all_batches {B} (batches : list B) shuffle whole sh h s :
  (forall l, Permutation (sh l) l) -> history (init batches shuffle whole sh) h s -> fair h ->
  exists ep, Permutation ep batches /\ (shuffle = false -> ep = batches) /\ reads ep 0 (this_epoch h).
Proof.
  intros Hsh H Hf. destruct (history_inv batches sh whole shuffle h s Hsh H Hf) as (ep&(H1&H2&_)&H3&_). exists ep. split; [exact H1|]. split; [|exact H3]. intros ->. apply H2.
  clear - H. remember (init batches false whole sh) as s0. induction H as [|h s o a s' H IH He]; [now subst|]. rewrite <- IH. clear - He. apply exec_shuffle in He. exact He.
Qed.
Print Assumptions C26_reads_all_batches.

(** C26: after any history, [advance n] works exactly if at least [n] batches of this epoch are not yet passed; in particular after [has_more] was true, and after [peek_next_n] showed [n] batches. *)
Theorem C26_advance_works {B} (batches : list B) shuffle whole sh h s n :
  (forall l, Permutation (sh l) l) -> history (init batches shuffle whole sh) h s -> fair h ->
  (exists s', exec (Advance n) s = Ok (Advanced, s')) <-> 0 < n /\ passed h + n <= length batches.
Proof.
  intros Hsh H Hf. destruct (history_inv batches sh whole shuffle h s Hsh H Hf) as (ep&Hi&_). rewrite <- (advance_iff batches s ep (passed h) n Hi). cbn [exec]. split.
  - intros (s'&He). apply bind_Ok in He. destruct He as (s1&He&_). now exists s1.
  - intros (s'&->). now exists s'.
Qed.
Print Assumptions C26_advance_works.

(** A run over two epochs: the second is a permutation (here: the reversal) of the first. *)
Definition run1 : list (op nat * answer nat) :=
  [(HasMore, More true); (Peek 2, Peeked [7; 8]); (Advance 2, Advanced); (Peek 2, Peeked [9]); (Advance 1, Advanced); (HasMore, More false); (Reset (@rev nat), WasReset);
   (Peek 2, Peeked [9; 8]); (Advance 3, Advanced); (HasMore, More false)].
Example C26_run1 : exists s, history (init [7; 8; 9] true true (@rev nat)) run1 s /\ fair run1 /\ this_epoch run1 = [(Peek 2, Peeked [9; 8]); (Advance 3, Advanced); (HasMore, More false)] /\ passed run1 = 3.
Proof.
  eexists. split.
  - change run1 with ([] ++ run1)%list. eapply exec_all_history; [apply h_nil|]. instantiate (2 := [HasMore; Peek 2; Advance 2; Peek 2; Advance 1; HasMore; Reset (@rev nat); Peek 2; Advance 3; HasMore]). vm_compute. reflexivity.
  - split; [|split; reflexivity]. intros sh a Hin l. cbn in Hin. repeat (destruct Hin as [Hin|Hin]; [try discriminate; injection Hin as <- _; symmetry; apply Permutation_rev|]). destruct Hin.
Qed.
