From Verif Require Import Base ListLemmas MultiEpochModel.
Local Open Scope nat_scope. Local Open Scope list_scope.

Section P.
  Context {A I : Type}.
  Variable inner : option nat -> option (list I) -> list A.
  Variable M : nat.
  Definition good (l : list A) : list (res (option A)) := map (fun x => Ok (Some x)) l.
  (** inside of an inner epoch: [done] was read *)
  Lemma inside st todo : forall done rest, cur st = done ++ todo -> collect_seqs inner M st (seq (seq_idx_offset st + length done) (length todo) ++ rest) = good todo ++ collect_seqs inner M st rest.
  Proof.
    induction todo as [|x todo IH]; intros done rest E; [reflexivity|]. cbn [length seq app good map collect_seqs]. unfold collect_single_seq. destruct (Nat.ltb_spec (seq_idx_offset st + length done) (seq_idx_offset st)); [lia|]. replace (seq_idx_offset st + length done - seq_idx_offset st) with (length done) by lia.
    assert (Hl : length (cur st) = length done + S (length todo)) by (rewrite E, app_length; reflexivity). destruct (Nat.ltb_spec (length done) (length (cur st))); [|lia]. unfold read. rewrite E, nth_error_app2, Nat.sub_diag by lia. cbn [nth_error]. f_equal.
    specialize (IH (done ++ [x]) rest). rewrite app_length in IH. cbn [length] in IH. replace (S (seq_idx_offset st + length done)) with (seq_idx_offset st + (length done + 1)) by lia. apply IH. now rewrite <- app_assoc.
  Qed.
  Lemma finished st : (predefined st = true \/ start_epoch st = None \/ M <= S (epoch_offset st)) -> forall idxs, Forall (fun i => seq_idx_offset st + length (cur st) <= i) idxs -> collect_seqs inner M st idxs = repeat (Ok None) (length idxs).
  Proof.
    intros H idxs Hi. revert st H Hi. induction idxs as [|i idxs IH]; intros st H Hi; [reflexivity|]. inversion Hi as [|? ? H1 H2]; subst. cbn [collect_seqs length repeat]. unfold collect_single_seq. destruct (Nat.ltb_spec i (seq_idx_offset st)); [lia|]. destruct (Nat.ltb_spec (i - seq_idx_offset st) (length (cur st))); [lia|]. destruct (predefined st) eqn:Ep; [f_equal; apply IH; [now left|assumption]|]. destruct (start_epoch st) as [e|] eqn:Ee; [|f_equal; apply IH; [right; now left|assumption]]. destruct (Nat.leb_spec M (S (epoch_offset st))).
    - f_equal. apply IH; [right; right; cbn; lia|exact H2].
    - destruct H as [H|[H|H]]; [discriminate|discriminate|lia].
  Qed.
  (** the remaining inner epochs, from one that is read completely *)
  Lemma next_epochs k : forall st e idx, start_epoch st = Some e -> predefined st = false -> idx = seq_idx_offset st + length (cur st) -> epoch_offset st + 1 + k = M \/ (k = 0 /\ M <= epoch_offset st + 1) ->
    let eps := map (fun j => inner (Some (e + j)) None) (seq (S (epoch_offset st)) k) in Forall (fun l => l <> []) eps ->
    forall beyond, Forall (fun i => idx + length (concat eps) <= i) beyond -> collect_seqs inner M st (seq idx (length (concat eps)) ++ beyond) = good (concat eps) ++ repeat (Ok None) (length beyond).
  Proof.
    induction k as [|k IH]; intros st e idx He Hp Hidx Hk eps Hne beyond Hb.
    - cbn [eps seq map concat length app good] in *. apply finished; [right; right; lia|]. eapply Forall_impl; [|exact Hb]. intros i. cbn. lia.
    - cbn [seq map concat] in eps. set (ep := inner (Some (e + S (epoch_offset st))) None) in *. assert (Hep : inner (Some (e + S (epoch_offset st))) None = ep) by reflexivity. clearbody ep. inversion Hne as [|? ? Hne1 Hne2]; subst x l. set (rest := map (fun j => inner (Some (e + j)) None) (seq (S (S (epoch_offset st))) k)) in *. subst eps. cbn [concat] in *. rewrite app_length in *.
      assert (Hlen : 0 < length ep) by (destruct ep; [contradiction|cbn; lia]).
      set (st' := MState (Some e) (S (epoch_offset st)) idx (predefined st) ep : mstate).
      assert (Hin : collect_seqs inner M st (seq idx (length ep) ++ seq (idx + length ep) (length (concat rest)) ++ beyond) = collect_seqs inner M st' (seq idx (length ep) ++ seq (idx + length ep) (length (concat rest)) ++ beyond)).
      { destruct ep as [|x ep'] eqn:Eep; [contradiction|]. cbn [length seq app collect_seqs]. unfold collect_single_seq. destruct (Nat.ltb_spec idx (seq_idx_offset st)); [lia|]. destruct (Nat.ltb_spec (idx - seq_idx_offset st) (length (cur st))); [lia|]. rewrite Hp, He. destruct (Nat.leb_spec M (S (epoch_offset st))); [lia|]. rewrite Hep. cbn [cur length]. destruct (Nat.ltb_spec 0 (S (length ep'))); [|lia].
        cbn [seq_idx_offset st' cur]. destruct (Nat.ltb_spec idx idx); [lia|]. rewrite Nat.sub_diag. cbn [length]. destruct (Nat.ltb_spec 0 (S (length ep'))); [|lia]. unfold st'. rewrite Hp. reflexivity. }
      rewrite seq_app, <- app_assoc. rewrite Hin. pose proof (inside st' ep [] (seq (idx + length ep) (length (concat rest)) ++ beyond) eq_refl) as H1. cbn [seq_idx_offset st' length] in H1. rewrite Nat.add_0_r in H1. fold st' in H1. rewrite H1. unfold good. rewrite map_app, <- app_assoc. f_equal.
      apply (IH st' e (idx + length ep)); [reflexivity|exact Hp|reflexivity|cbn; lia|exact Hne2|]. eapply Forall_impl; [|exact Hb]. intros i. cbn. fold rest. lia.
  Qed.
End P.
