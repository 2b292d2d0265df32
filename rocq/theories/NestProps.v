(** C133: selecting hypotheses in nested states. *)
From Coq Require Import List Bool Arith Lia.
From Verif Require Import Base NestModel NestSpec NestProofs.
Import ListNotations.

(** For every state which has the dims of its tensors, [gather_nested] succeeds, and the new
    state is the selection: the same structure, one new dim for each dim whose sizes differ
    per hypothesis, with the sizes and the entries of the selected hypotheses. *)
Theorem C133_gather_selects : forall s i ls,
  state_ok s i ls -> complete s i ls ->
  exists ls' s' m names, gather_nested s i ls = Ok (ls', s', m) /\
    selected s i ls s' ls' names /\
    (forall d, ~ per_hyp s (sparse i) d -> names d = d) /\
    (forall d, d < length s -> forall r, size_at s' d r = size_at s d r).
Proof. exact gather_nested_spec. Qed.
Print Assumptions C133_gather_selects.

(** Example: three old hypotheses (dim 0) with histories (dim 2) of the lengths 2, 3, 1, and
    two new ones (dim 1), which continue the hypotheses 2 and 0. *)
Definition lens (x : nat) : nat := match x with 0 => 2 | 1 => 3 | _ => 1 end.
Definition ex_store : store :=
  [Static 3; Static 2; Dyn (mkTensor [0] (fun r => lens (r 0)))].
Definition ex_idx : indices := mkIdx (mkTensor [1] (fun r => if r 1 =? 0 then 2 else 0)) 0.
Definition hist : tensor := mkTensor [0; 2] (fun r => 10 * r 0 + r 2).
Definition score : tensor := mkTensor [0] (fun r => 100 + r 0).
Definition ex_state : list leaf := [LTensor hist; LDim 2; LTensor score].
Definition at_ (l : list nat) : pos := fun k => nth k l 0.

Lemma ex_per_hyp d : per_hyp ex_store 0 d -> d = 2.
Proof.
  intros (t & Ht & Hi). destruct d as [|[|[|[|d]]]]; cbn in Ht; try discriminate; reflexivity.
Qed.

Lemma ex_ok ls : (forall x, In x ls -> In x ex_state) -> state_ok ex_store ex_idx ls.
Proof.
  intros Hsub. split.
  - intros d t H. destruct d as [|[|[|[|d]]]]; cbn in H; try discriminate. injection H as <-. split.
    + intros r r' Hr. cbn in *. now rewrite (Hr 0) by auto.
    + cbn. intros k [<- | []] Hp. apply ex_per_hyp in Hp. discriminate.
  - intros t H. apply Hsub in H. cbn in H. destruct H as [E | [E | [E | []]]]; try discriminate;
      injection E as <-; (split; [|split]).
    + intros r r' Hr. unfold hist in *. cbn [tval tdims] in *. rewrite (Hr 0), (Hr 2); cbn; auto.
    + repeat constructor; cbn; intuition lia.
    + cbn. intuition lia.
    + intros r r' Hr. unfold score in *. cbn [tval tdims] in *. rewrite (Hr 0); cbn; auto.
    + repeat constructor; cbn; intuition lia.
    + cbn. intuition lia.
  - intros d H. apply Hsub in H. cbn in H. destruct H as [E | [E | [E | []]]]; try discriminate.
    injection E as <-. cbn. lia.
  - intros H. apply Hsub in H. cbn in H. destruct H as [E | [E | [E | []]]]; discriminate.
  - split; [cbn; lia|]. intros Hp. apply ex_per_hyp in Hp. discriminate.
  - cbn. intros k [<- | []]. split; [lia|]. intros Hp. apply ex_per_hyp in Hp. discriminate.
  - intros r _. cbn. destruct (r 1 =? 0); lia.
Qed.

Example ex_hyps : state_ok ex_store ex_idx ex_state /\ complete ex_store ex_idx ex_state.
Proof.
  split; [now apply ex_ok|]. intros t d _ _ Hp. apply ex_per_hyp in Hp. subst. cbn. auto.
Qed.

Definition leaf_val (r : pos) (l : leaf) : list nat * nat :=
  match l with LTensor t => (tdims t, tval t r) | LDim d => ([d], 0) | LOther => ([], 0) end.
Example ex_gather :
  match gather_nested ex_store ex_idx ex_state with
  | Ok (ls, s, m) =>
      map (leaf_val (at_ [0; 0; 0; 0])) ls = [([1; 3], 20); ([3], 0); ([1], 102)] /\
      map (leaf_val (at_ [0; 1; 0; 1])) ls = [([1; 3], 1); ([3], 0); ([1], 100)] /\
      map (fun h => size_at s 3 (at_ [0; h])) [0; 1] = [1; 2] /\ m = [(2, 3)]
  | Err _ => False
  end.
Proof. vm_compute. repeat split. Qed.

(** Refuted: the same for a state which does not have all these dims as leaves.  The tensor
    keeps the old dim, whose sizes are those of the old hypotheses. *)
Theorem C133_incomplete_state_refuted :
  ~ (forall s i ls, state_ok s i ls ->
       exists ls' s' m names, gather_nested s i ls = Ok (ls', s', m) /\ selected s i ls s' ls' names).
Proof.
  intros H. destruct (H ex_store ex_idx [LTensor hist]) as (ls' & s' & m & names & E & _ & _ & Ht).
  { apply ex_ok. intros x [<- | []]. now left. }
  destruct (Ht 0 hist eq_refl) as (t' & Hk & Hd & _ & Hin).
  unfold gather_nested in E. cbn [prepare_all prepare bind mapM] in E.
  assert (Hls : nth_error ls' 0 = Some (LTensor (gather hist ex_idx)) /\ s' = ex_store).
  { cbn [fst snd gather_leaf] in E. unfold gather_tensor in E. cbn [replace_dims tdims hist dget bind] in E.
    cbn [mem existsb sparse ex_idx Nat.eqb orb tdims hist] in E. split.
    - assert (E1 : ls' = [LTensor (gather hist ex_idx)]) by congruence. now rewrite E1.
    - congruence. }
  destruct Hls as [Hls ->]. assert (Et : t' = gather hist ex_idx) by congruence. subst t'.
  assert (Hn : names 2 = 2).
  { assert (H2 : In 2 (tdims (gather hist ex_idx))) by (cbn; auto).
    apply Hd in H2. destruct H2 as [(d & Hd2 & Hne & E2) | [_ H2]].
    - cbn in Hd2, Hne. destruct Hd2 as [<- | [<- | []]]; [congruence | auto].
    - cbn in H2. destruct H2 as [H2 | []]. discriminate. }
  assert (Hbad : inside ex_store hist (old_pos ex_idx names (at_ [1; 0; 2]))).
  { apply Hin. intros d Hdd. cbn in Hdd. destruct Hdd as [<- | [<- | []]]; cbn; lia. }
  specialize (Hbad 2). unfold old_pos in Hbad. cbn [Nat.eqb sparse ex_idx] in Hbad. rewrite Hn in Hbad.
  cbn in Hbad. assert (2 < 1) by (apply Hbad; auto). lia.
Qed.
Print Assumptions C133_incomplete_state_refuted.

(** Refuted: the same when the sizes of one dim depend on the position in another one, and
    the leaf for the first comes before the leaf for the second: its sizes keep the old dim. *)
Definition nested_store : store :=
  [Static 3; Static 2; Dyn (mkTensor [0] (fun r => lens (r 0))); Dyn (mkTensor [0; 2] (fun r => r 2))].
Definition nested_state : list leaf := [LDim 3; LDim 2].
Theorem C133_dims_of_sizes_refuted :
  ~ (forall s i ls ls' s' m,
       (forall d t, nth_error s d = Some (Dyn t) -> proper t) ->
       (forall d t k, nth_error s d = Some (Dyn t) -> In k (tdims t) -> k < d) ->
       (forall d t k, In (LDim d) ls -> nth_error s d = Some (Dyn t) -> In k (tdims t) ->
          per_hyp s (sparse i) k -> In (LDim k) ls) ->
       gather_nested s i ls = Ok (ls', s', m) -> exists names, selected s i ls s' ls' names).
Proof.
  intros H.
  destruct (gather_nested nested_store ex_idx nested_state) as [[[ls' s'] m]|] eqn:E; [|discriminate E].
  destruct (H nested_store ex_idx nested_state ls' s' m) as (names & _ & Hd & _); auto.
  - intros d t Hd. destruct d as [|[|[|[|[|d]]]]]; cbn in Hd; try discriminate; injection Hd as <-; intros r r' Hr; cbn in *.
    + now rewrite (Hr 0) by auto.
    + now rewrite (Hr 2) by auto.
  - intros d t k Hd. destruct d as [|[|[|[|[|d]]]]]; cbn in Hd; try discriminate; injection Hd as <-; cbn; intuition lia.
  - intros d t k _ _ _ (x & Hx & Hi). destruct k as [|[|[|[|[|k]]]]]; cbn in Hx; try discriminate; cbn; auto.
  - destruct (Hd 0 3 eq_refl) as [H1 H2]. destruct (Hd 1 2 eq_refl) as [H3 _].
    assert (En : names 3 = 4 /\ names 2 = 5 /\ forall r, size_at s' 4 r = r 2).
    { unfold gather_nested in E. cbn [bind] in E.
      destruct (prepare_all ex_idx nested_state (nested_store, [])) as [st|] eqn:Ep; [|discriminate E].
      cbn [prepare_all nested_state prepare nth_error nested_store dget bind] in Ep.
      cbn [mem existsb sparse ex_idx Nat.eqb orb tdims] in Ep.
      unfold gather_tensor in Ep. cbn [replace_dims tdims dget bind] in Ep.
      cbn [mem existsb sparse ex_idx Nat.eqb orb tdims] in Ep. cbn [bind app length nth_error dget Nat.eqb] in Ep.
      cbn [mem existsb sparse ex_idx Nat.eqb orb tdims] in Ep. cbn [replace_dims tdims dget bind Nat.eqb] in Ep.
      cbn [mem existsb sparse ex_idx Nat.eqb orb tdims] in Ep. cbn [bind app length] in Ep.
      injection Ep as <-. cbn [bind fst snd mapM gather_leaf nth_error dget Nat.eqb] in E.
      injection E as <- <- _. cbn in H1, H3. repeat split; try congruence. }
    destruct En as (E3 & E2 & Es). assert (Hne : 3 <> sparse ex_idx) by (cbn; lia).
    specialize (H2 Hne (at_ [0; 0; 7; 0; 0; 5])). rewrite E3, Es in H2.
    unfold size_at, nested_store in H2. cbn [nth_error tval] in H2.
    unfold old_pos in H2. cbn [Nat.eqb sparse ex_idx] in H2. rewrite E2 in H2. cbn in H2. discriminate.
Qed.
Print Assumptions C133_dims_of_sizes_refuted.

(** Refuted: a state with an entry None (or a number) can be gathered. *)
Theorem C133_none_leaf_refuted :
  ~ (forall s i ls, exists r, gather_nested s i ls = Ok r).
Proof. intros H. destruct (H ex_store ex_idx [LTensor score; LOther]) as (r & Hr). discriminate Hr. Qed.
Print Assumptions C133_none_leaf_refuted.

(** Refuted: a dim of the structure which is a dim of its tensors is one afterwards.  The dim
    of the hypotheses itself stays in the structure as it was. *)
Theorem C133_beam_leaf_refuted :
  ~ (forall s i ls ls' s' m k d j t d' t', complete s i ls ->
       gather_nested s i ls = Ok (ls', s', m) ->
       nth_error ls k = Some (LDim d) -> nth_error ls j = Some (LTensor t) -> In d (tdims t) ->
       nth_error ls' k = Some (LDim d') -> nth_error ls' j = Some (LTensor t') -> In d' (tdims t')).
Proof.
  intros H.
  specialize (H ex_store ex_idx [LDim 0; LTensor score] [LDim 0; LTensor (gather score ex_idx)] ex_store []
    0 0 1 score 0 (gather score ex_idx)).
  assert (Hin : In 0 (tdims (gather score ex_idx))).
  { apply H; try reflexivity; [|now left].
    intros t d Ht Hdt Hp. apply ex_per_hyp in Hp. subst d.
    destruct Ht as [Ht | [Ht | []]]; [discriminate|]. injection Ht as <-. cbn in Hdt. intuition lia. }
  cbn in Hin. intuition lia.
Qed.
Print Assumptions C133_beam_leaf_refuted.
