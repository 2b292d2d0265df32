(** Proofs about HDF files, part 5: the declared sizes. *)
From Coq Require Import String Ascii.
From Verif Require Import Base PyDict ListLemmas OptimModel OptimProofs HdfModel HdfSpec HdfProofs HdfReadProofs HdfOkProofs.
Local Open Scope string_scope.
Local Open Scope nat_scope.
Local Open Scope list_scope.
Local Notation length := List.length.

Section F.
Context {A : Type}.
Notation hfile := (@hfile A).
Notation reader := (@reader A).

Lemma dict_same_get (a b : @dict string (nat * nat)) k v : dict_same a b = true -> dget a k = Some v -> dget b k = Some v.
Proof.
  unfold dict_same. rewrite andb_true_iff, forallb_forall. intros [H _] Hk. apply dget_In in Hk. specialize (H _ Hk). cbn [fst snd] in H.
  destruct (dget b k) as [[x y]|]; [|discriminate]. apply andb_true_iff in H. rewrite !Nat.eqb_eq in H. destruct v. cbn in H. f_equal. f_equal; symmetry; tauto.
Qed.
Lemma fold_dset_get (l : list (string * (nat * nat))) : forall d k v,
  dget (fold_left (fun d kv => dset d (fst kv) (snd kv)) l d) k = Some v -> In (k, v) l \/ dget d k = Some v.
Proof.
  induction l as [|[k' v'] l IH]; intros d k v H; cbn [fold_left fst snd] in H; [now right|]. apply IH in H. destruct H as [H|H]; [left; now right|].
  rewrite dget_dset_str in H. destruct (String.eqb k' k) eqn:E; [|now right]. apply String.eqb_eq in E. injection H as <-. subst. left. now left.
Qed.

Lemma add_file_declares (r r' : reader) (f : hfile) : add_file r f = Ok r' ->
  (r_outputs r <> [] -> r_outputs r' = r_outputs r) /\ (f_inputs f <> None -> r_outputs r' <> [])
  /\ forall k v, dget (r_outputs r') k = Some v -> file_declares f k v.
Proof.
  intros H. unfold add_file in H. cbv zeta in H.
  repeat match type of H with
         | bind ?e _ = Ok _ => first [match e with assert_ (dict_same _ _) => fail 2 end | let x := fresh "x" in let Hx := fresh "Hx" in apply bind_Ok in H; destruct H as (x&Hx&H)]
         | context [let '(_, _) := ?p in _] => destruct p
         end.
  match type of H with bind (assert_ (dict_same ?ro ?outs)) _ = _ => remember outs as outs' eqn:Eo; remember ro as ro' eqn:Er end.
  apply bind_Ok in H. destruct H as (u&Hs&H). apply assert_Ok in Hs.
  repeat match type of H with
         | bind ?e _ = Ok _ => let x := fresh "x" in let Hx := fresh "Hy" in apply bind_Ok in H; destruct H as (x&Hx&H)
         end.
  apply Ok_inj in H. subst r'. cbn [r_outputs]. split; [intros Hne; subst ro'; destruct (r_outputs r); [congruence|reflexivity]|].
  split.
  - intros Hi. subst ro'. destruct (r_outputs r); [|discriminate]. subst outs'. destruct (f_inputs f) as [[? ?]|]; [|congruence].
    intros E. assert (X : dget (dset (fold_left (fun d kv => dset d (fst kv) (snd kv)) x3 []) "data" p) "data" = Some p) by (rewrite dget_dset_str; reflexivity).
    rewrite E in X. discriminate.
  - intros k v Hk. apply (dict_same_get _ _ _ _ Hs) in Hk. subst outs'. unfold file_declares.
    assert (G : dget (fold_left (fun d kv => dset d (fst kv) (snd kv)) x3 []) k = Some v -> dget (f_sizes f) k = Some v).
    { clear Hk. intros Hk. apply fold_dset_get in Hk. destruct Hk as [Hk|Hk]; [|discriminate Hk].
      match goal with Hm : _ = Ok x3 |- _ => rename Hm into Hm0 end.
      destruct (f_data f); [rename Hm0 into Hm|apply Ok_inj in Hm0; subst x3; destruct Hk].
      apply mapM_Ok_Forall2 in Hm. clear - Hm Hk. revert Hk. induction Hm as [|a b la lb Hab Hm IH]; intros Hk; [destruct Hk|].
      destruct Hk as [->|Hk]; [|auto]. destruct (dget (f_sizes f) a) eqn:E; [|discriminate]. apply Ok_inj in Hab. injection Hab as <- <-. exact E. }
    destruct (f_inputs f) as [[fr ki]|]; [|right; auto].
    rewrite dget_dset_str in Hk. destruct (String.eqb "data" k) eqn:E; [|right; auto].
    apply String.eqb_eq in E. injection Hk as <-. left. split; [auto|]. now exists fr.
Qed.
Lemma add_files_declares fs : forall (r r' : reader), add_files r fs = Ok r' -> Forall (fun f => f_inputs f <> None) fs ->
  (r_outputs r <> [] -> r_outputs r' = r_outputs r) /\ forall f k v, In f fs -> dget (r_outputs r') k = Some v -> file_declares f k v.
Proof.
  induction fs as [|f fs IH]; intros r r' H HF; cbn [add_files] in H; [apply Ok_inj in H; subst; split; [auto|intros ? ? ? []]|].
  apply bind_Ok in H. destruct H as (r1&H1&H). inversion HF as [|? ? Hi HF']; subst. destruct (add_file_declares _ _ _ H1) as (D1&D2&D3).
  destruct (IH _ _ H HF') as [E1 E2]. split; [intros Hn; rewrite E1; auto; rewrite D1; auto|].
  intros f0 k v [->|Hf] Hk; [|eauto]. apply D3. rewrite <- E1; auto.
Qed.

End F.

(** *** the writer *)
Section W.
Context {A : Type} (zero : A) (of_size : nat -> A).
Notation hfile := (@hfile A).
Notation writer := (@writer A).
Definition keeps (w w' : writer) : Prop :=
  forall k, In k (w_prepared w) -> In k (w_prepared w') /\ dget (f_sizes (w_file w')) k = dget (f_sizes (w_file w)) k.
Lemma keeps_refl w : keeps w w. Proof. intros k H. auto. Qed.
Lemma keeps_trans a b c : keeps a b -> keeps b c -> keeps a c.
Proof. intros H1 H2 k H. destruct (H1 k H) as [A1 A2]. destruct (H2 k A1) as [B1 B2]. split; [exact B1|congruence]. Qed.
Lemma keeps_same w w' : w_prepared w' = w_prepared w -> f_sizes (w_file w') = f_sizes (w_file w) -> keeps w w'.
Proof. intros H1 H2 k H. now rewrite H1, H2. Qed.
Lemma set_len_sizes (f f' : hfile) i j v : set_len f i j v = Ok f' -> f_sizes f' = f_sizes f.
Proof.
  unfold set_len. intros H. apply bind_Ok in H. destruct H as (?&_&H). apply bind_Ok in H. destruct H as (?&_&H). apply bind_Ok in H. destruct H as (?&_&H).
  apply Ok_inj in H. now subst.
Qed.
Lemma prepare_one_keeps (w w' : writer) key dim ndim els : prepare_one w key dim ndim els = Ok w' -> mem_str key (w_prepared w) = false ->
  keeps w w' /\ w_prepared w' = w_prepared w ++ [key] /\ w_extend w' = w_extend w
  /\ (w_extend w = false -> dget (f_sizes (w_file w')) key = Some (or_one dim, if ndim =? 0 then 1 else ndim)).
Proof.
  intros H Hn. apply mem_str_not in Hn. unfold prepare_one in H. apply bind_Ok in H. destruct H as (ls&_&H). destruct (w_extend w) eqn:Ee.
  - destruct (f_data (w_file w)); [|discriminate]. destruct (dget d key); [|discriminate]. apply Ok_inj in H. subst w'.
    split; [|repeat split; discriminate]. intros k Hk. cbn. split; [apply in_or_app; now left|reflexivity].
  - apply Ok_inj in H. subst w'. split; [|cbn; repeat split; intros _; now rewrite dget_dset_str, String.eqb_refl].
    intros k Hk. cbn. split; [apply in_or_app; now left|]. rewrite dget_dset_str. destruct (String.eqb key k) eqn:E; [|reflexivity].
    apply String.eqb_eq in E. congruence.
Qed.
Lemma prepare_loop_keeps els types : forall (w w' : writer) a o, prepare_loop w types els a = Ok (w', o) -> keeps w w' /\ w_extend w' = w_extend w.
Proof.
  induction types as [|[key [dim ndim]] types IH]; intros w w' a o H; cbn [prepare_loop] in H; [apply Ok_inj in H; injection H as <- <-; split; [apply keeps_refl|reflexivity]|].
  apply bind_Ok in H. destruct H as (?&_&H). destruct (mem_str key (w_prepared w)) eqn:E; [apply Ok_inj in H; injection H as <- <-; split; [apply keeps_refl|reflexivity]|].
  apply bind_Ok in H. destruct H as (w1&H1&H). destruct (prepare_one_keeps _ _ _ _ _ _ H1 E) as (K1&_&E1&_). destruct (IH _ _ _ _ H) as [K2 E2].
  split; [eapply keeps_trans; eauto|congruence].
Qed.
Lemma prepare_loop_sizes els types : forall (w w' : writer) a o, prepare_loop w types els a = Ok (w', o) -> w_extend w = false ->
  NoDup (map fst types) -> (forall k, In k (map fst types) -> ~ In k (w_prepared w)) ->
  forall k d n, In (k, (d, n)) types -> In k (w_prepared w') /\ dget (f_sizes (w_file w')) k = Some (or_one d, if n =? 0 then 1 else n).
Proof.
  induction types as [|[key [dim ndim]] types IH]; intros w w' a o H He Nd Hd k d n Hk; cbn [prepare_loop] in H; [destruct Hk|].
  apply bind_Ok in H. destruct H as (?&_&H).
  assert (E : mem_str key (w_prepared w) = false) by (apply mem_str_not, Hd; now left). rewrite E in H.
  apply bind_Ok in H. destruct H as (w1&H1&H). destruct (prepare_one_keeps _ _ _ _ _ _ H1 E) as (K1&P1&E1&S1).
  cbn [map fst] in Nd, Hd. inversion Nd as [|? ? Nk Nd']; subst. destruct Hk as [Hk|Hk].
  - injection Hk as <- <- <-. destruct (prepare_loop_keeps _ _ _ _ _ _ H) as [K2 _]. destruct (K2 key) as [A1 A2]; [rewrite P1; apply in_or_app; right; now left|].
    split; [exact A1|]. rewrite A2. auto.
  - apply (IH _ _ _ _ H); auto; [congruence|]. intros k' Hk'. rewrite P1. intros Hin. apply in_app_or in Hin. destruct Hin as [Hin|[->|[]]]; [|contradiction].
    eapply Hd; [right; exact Hk'|exact Hin].
Qed.
Lemma prepare_extra_keeps (w w' : writer) types els b : prepare_extra w types els = Ok (w', b) -> keeps w w'.
Proof.
  unfold prepare_extra. intros H. apply bind_Ok in H. destruct H as ([w1 o]&H1&H). apply prepare_loop_keeps in H1. destruct H1 as [K1 _].
  destruct o; [|apply Ok_inj in H; now injection H as <- _]. destruct (_ && _); apply Ok_inj in H; injection H as <- _; [|exact K1].
  eapply keeps_trans; [exact K1|]. now apply keeps_same.
Qed.
Lemma insert_inputs_keeps (w w' : writer) raw kind : insert_inputs zero w raw kind = Ok w' -> keeps w w'.
Proof.
  unfold insert_inputs. intros H. apply bind_Ok in H. destruct H as ([? ?]&_&H). apply bind_Ok in H. destruct H as (?&_&H). apply Ok_inj in H. subst. now apply keeps_same.
Qed.
Lemma reinit_sizes steps i keys : forall (f f' : hfile) j, reinit_lens f steps i j keys = Ok f' -> f_sizes f' = f_sizes f.
Proof.
  induction keys as [|k keys IH]; intros f f' j H; cbn [reinit_lens] in H; [apply Ok_inj in H; now subst|]. destruct (dget steps k); [|discriminate].
  apply bind_Ok in H. destruct H as (f1&H1&H). apply set_len_sizes in H1. apply IH in H. congruence.
Qed.
Lemma insert_other_keeps (w w' : writer) key raw dim ndim : insert_other zero w key raw dim ndim = Ok w' -> keeps w w'.
Proof.
  unfold insert_other. intros H. apply bind_Ok in H. destruct H as (?&_&H). apply bind_Ok in H. destruct H as ([w1 b]&H1&H). apply prepare_extra_keeps in H1.
  eapply keeps_trans; [exact H1|]. clear H1. apply bind_Ok in H. destruct H as (w2&H2&H). apply (keeps_trans _ w2).
  - destruct b; [|apply Ok_inj in H2; subst; apply keeps_refl]. apply bind_Ok in H2. destruct H2 as (?&_&H2). apply bind_Ok in H2. destruct H2 as (f&Hf&H2). apply Ok_inj in H2. subst w2.
    apply reinit_sizes in Hf. now apply keeps_same.
  - clear H2. destruct (dget (w_steps w2) key); [|discriminate]. destruct (f_data (w_file w2)) as [d|]; [|discriminate]. destruct (index_str _ _); [|discriminate].
    destruct (dget d key); [|discriminate]. apply bind_Ok in H. destruct H as (f&Hf&H). apply bind_Ok in H. destruct H as (?&_&H). apply Ok_inj in H. subst w'.
    apply set_len_sizes in Hf. now apply keeps_same.
Qed.
Lemma insert_extras_keeps i extra : forall w w' : writer, insert_extras zero w i extra = Ok w' -> keeps w w'.
Proof.
  induction extra as [|[key [[dim ndim] values]] extra IH]; intros w w' H; cbn [insert_extras] in H; [apply Ok_inj in H; subst; apply keeps_refl|].
  apply bind_Ok in H. destruct H as (v&_&H). apply bind_Ok in H. destruct H as (w1&H1&H). apply insert_other_keeps in H1. eapply keeps_trans; eauto.
Qed.
Lemma insert_seq_keeps (w w' : writer) b offset na i : insert_seq zero of_size w b offset na i = Ok w' -> keeps w w'.
Proof.
  unfold insert_seq. cbv zeta. intros H. apply bind_Ok in H. destruct H as (?&_&H). apply bind_Ok in H. destruct H as (tags&_&H).
  apply bind_Ok in H. destruct H as (lens&_&H). apply bind_Ok in H. destruct H as (f&Hf&H). apply set_len_sizes in Hf. cbn [with_file w_file f_sizes] in Hf.
  apply bind_Ok in H. destruct H as (?&_&H). apply bind_Ok in H. destruct H as (?&_&H). apply bind_Ok in H. destruct H as (w1&H1&H). apply bind_Ok in H. destruct H as (w2&H2&H).
  apply insert_inputs_keeps in H1. apply insert_extras_keeps in H. eapply keeps_trans; [|eapply keeps_trans; [exact H1|eapply keeps_trans; [|exact H]]].
  - now apply keeps_same.
  - destruct (1 <? length (b_lens b)); [now apply insert_other_keeps in H2|apply Ok_inj in H2; subst; apply keeps_refl].
Qed.
Lemma insert_seqs_keeps b offset na n : forall i (w w' : writer), insert_seqs zero of_size w b offset na i n = Ok w' -> keeps w w'.
Proof.
  induction n as [|n IH]; intros i w w' H; cbn [insert_seqs] in H; [apply Ok_inj in H; subst; apply keeps_refl|].
  apply bind_Ok in H. destruct H as (w1&H1&H). apply insert_seq_keeps in H1. eapply keeps_trans; eauto.
Qed.
Lemma insert_batches_keeps bs : forall w w' : writer, insert_batches zero of_size w bs = Ok w' -> keeps w w'.
Proof.
  induction bs as [|b bs IH]; intros w w' H; cbn [insert_batches] in H; [apply Ok_inj in H; subst; apply keeps_refl|].
  apply bind_Ok in H. destruct H as (w1&H1&H). apply IH in H. eapply keeps_trans; [|exact H]. clear H.
  unfold insert_batch in H1. cbv zeta in H1.
  repeat match type of H1 with bind _ _ = Ok _ => let x := fresh in apply bind_Ok in H1; destruct H1 as (x&_&H1) end.
  apply insert_seqs_keeps in H1. eapply keeps_trans; [|exact H1]. now apply keeps_same.
Qed.
Lemma write_file_sizes dim ndim labels types tlabels bs f : write_file zero of_size dim ndim labels types tlabels bs = Ok f -> NoDup (map fst types) ->
  forall k d n, In (k, (d, n)) types -> dget (f_sizes f) k = Some (or_one d, if n =? 0 then 1 else n).
Proof.
  unfold write_file, new_writer. cbv zeta. intros H Nd k d n Hk. apply bind_Ok in H. destruct H as (w0&H0&H). apply bind_Ok in H. destruct H as (w1&H1&H).
  apply Ok_inj in H. subst f. apply insert_batches_keeps in H1. apply bind_Ok in H0. destruct H0 as (?&_&H0). destruct types as [|t types]; [destruct Hk|].
  apply bind_Ok in H0. destruct H0 as ([w2 b]&H0&H2). apply Ok_inj in H2. subst w2. unfold prepare_extra in H0.
  apply bind_Ok in H0. destruct H0 as ([w2 o]&H0&H2). pose proof (prepare_loop_sizes _ _ _ _ _ _ H0 eq_refl Nd (fun _ _ X => X) k d n Hk) as [A1 A2].
  assert (K : keeps w2 w0).
  { destruct o; [|apply Ok_inj in H2; injection H2 as <- _; apply keeps_refl]. destruct (_ && _); apply Ok_inj in H2; injection H2 as <- _; [now apply keeps_same|apply keeps_refl]. }
  destruct (K k A1) as [B1 B2]. destruct (H1 k B1) as [C1 C2]. congruence.
Qed.
End W.
