(* C104: the sizes of the data of a batch. *)
From Coq Require Import List Arith String Lia.
From Verif Require Import Base PyDict ListLemmas ExternModel ExternSpec ExternProofs.
Import ListNotations.

(* C104: for a batch which fits extern_data, where data with the same time dim have the same sequence lengths: the batch
   dim has the number of sequences as size, and each time dim the sequence lengths of all data which have it. *)
Theorem C104_sizes template batch b num :
  template <> [] -> batch_fits b template num batch -> same_lengths template batch ->
  exists sizes, to_extern template batch = Ok sizes /\
    get_size sizes b = Some (One num) /\
    forall k dims d r lens, In (k, dims) template -> nth_error dims 1 = Some (Dyn d) ->
      dget batch k = Some r -> r_lens r = Some lens -> get_size sizes d = Some (PerSeq lens).
Proof.
  intros Ht Hf Hl. destruct (to_extern_ok _ _ _ _ Ht Hf) as (sizes & E & S1 & S2 & S3). exists sizes.
  split; [exact E|]. split; [auto|]. intros k dims d r lens Hk Hd Hr Hlens.
  destruct (get_size sizes d) as [s|] eqn:Es; [|exfalso; eapply S2; eauto].
  destruct (S3 d s Es) as [[-> _]|[_ (k' & ds & r' & lens' & H1 & H2 & H3 & H4 & ->)]].
  - exfalso. destruct (Hf k dims Hk) as (r' & _ & rest & shape & -> & _ & _ & _ & Hx). destruct (Hx b Hd). congruence.
  - assert (X : r_lens r' = r_lens r) by (exact (Hl k' k ds dims d r' r H1 Hk H2 Hd H3 Hr)). congruence.
Qed.
Print Assumptions C104_sizes.

Definition ex_template : list (string * list dim) :=
  [("data"%string, [Dyn 0; Dyn 1; Static 40]); ("classes"%string, [Dyn 0; Dyn 1]); ("text"%string, [Dyn 0; Dyn 2]);
   ("speaker"%string, [Dyn 0])].
Definition ex_raw (classes : list nat) : list (string * raw) :=
  [("data"%string, {| r_shape := [2; 5; 40]; r_lens := Some [5; 3] |}); ("classes"%string, {| r_shape := [2; 5]; r_lens := Some classes |});
   ("text"%string, {| r_shape := [2; 4]; r_lens := Some [1; 4] |}); ("speaker"%string, {| r_shape := [2]; r_lens := None |});
   ("seq_tag"%string, {| r_shape := [2]; r_lens := None |})].

Example C104_ex_fits : batch_fits 0 ex_template 2 (ex_raw [5; 3]) /\ same_lengths ex_template (ex_raw [5; 3]).
Proof.
  split.
  - intros k dims H. cbn in H.
    repeat (destruct H as [H|H]; [injection H as <- <-; eexists; split; [reflexivity|]; eexists; eexists;
      split; [reflexivity|]; split; [reflexivity|]; split; [reflexivity|]; split;
      [intros i n m Hn Hm; destruct i as [|[|[|i]]]; cbn in Hn, Hm; congruence
      |intros d Hd; cbn in Hd; first [discriminate|injection Hd as <-; split; [discriminate|eexists; split; reflexivity]]]|]).
    destruct H.
  - intros k1 k2 d1 d2 d r1 r2 H1 H2 E1 E2 G1 G2. cbn in H1, H2.
    repeat (destruct H1 as [H1|H1]; [injection H1 as <- <-|]); try contradiction;
    repeat (destruct H2 as [H2|H2]; [injection H2 as <- <-|]); try contradiction;
    cbn in E1, E2; first [congruence|vm_compute in G1, G2; injection G1 as <-; injection G2 as <-; reflexivity].
Qed.

Example C104_ex : to_extern ex_template (ex_raw [5; 3]) = Ok [(2, PerSeq [1; 4]); (1, PerSeq [5; 3]); (0, One 2)].
Proof. reflexivity. Qed.

(* Without it, the lengths of the first data with the dim count, silently also for the others. *)
Theorem C104_lengths_refuted :
  ~ (forall template batch b num sizes, template <> [] -> batch_fits b template num batch ->
       to_extern template batch = Ok sizes ->
       forall k dims d r lens, In (k, dims) template -> nth_error dims 1 = Some (Dyn d) ->
         dget batch k = Some r -> r_lens r = Some lens -> get_size sizes d = Some (PerSeq lens)).
Proof.
  intros H. specialize (H ex_template (ex_raw [4; 5]) 0 2).
  assert (X : Some (PerSeq [5; 3]) = Some (PerSeq [4; 5])); [|discriminate X].
  refine (H _ _ _ eq_refl "classes"%string [Dyn 0; Dyn 1] 1 _ [4; 5] _ eq_refl eq_refl eq_refl).
  - discriminate.
  - intros k dims H'. cbn in H'.
    repeat (destruct H' as [H'|H']; [injection H' as <- <-; eexists; split; [reflexivity|]; eexists; eexists;
      split; [reflexivity|]; split; [reflexivity|]; split; [reflexivity|]; split;
      [intros i n m Hn Hm; destruct i as [|[|[|i]]]; cbn in Hn, Hm; congruence
      |intros d Hd; cbn in Hd; first [discriminate|injection Hd as <-; split; [discriminate|eexists; split; reflexivity]]]|]).
    destruct H'.
  - right. left. reflexivity.
Qed.
Print Assumptions C104_lengths_refuted.

(* A batch is only accepted if it has every key of extern_data, with the same number of axes and the static sizes. An empty
   batch is never accepted. *)
Theorem C104_accepted template batch sizes : to_extern template batch = Ok sizes ->
  batch <> [] /\ forall k dims, In (k, dims) template ->
    exists r, dget batch k = Some r /\ List.length (r_shape r) = List.length dims /\
      forall i n m, nth_error dims i = Some (Static n) -> nth_error (r_shape r) i = Some m -> n = m.
Proof.
  assert (S : forall dims shape, static_match dims shape = true ->
    forall i n m, nth_error dims i = Some (Static n) -> nth_error shape i = Some m -> n = m).
  { induction dims as [|d dims IH]; intros shape Hm i n m Hn Hs; [destruct i; discriminate|]. destruct shape as [|x shape]; [destruct i; discriminate|].
    destruct d as [c|c]; cbn in Hm.
    - apply andb_prop in Hm as [E Hm]. apply Nat.eqb_eq in E. destruct i; cbn in Hn, Hs; [congruence|eauto].
    - destruct i; cbn in Hn, Hs; [congruence|eauto]. }
  assert (K : forall b template sizes0 sizes1, extern_keys b sizes0 template batch = Ok sizes1 -> forall k dims, In (k, dims) template ->
    exists r, dget batch k = Some r /\ List.length (r_shape r) = List.length dims /\
      forall i n m, nth_error dims i = Some (Static n) -> nth_error (r_shape r) i = Some m -> n = m).
  { intros b t. induction t as [|[k0 ds] t IH]; intros s0 s1 H k dims Hin; [destruct Hin|]. cbn [extern_keys] in H.
    destruct (extern_key b s0 ds (dget batch k0)) as [s|e] eqn:E; [|discriminate]. cbn [bind] in H. destruct Hin as [X|Hin]; [|eauto]. injection X as -> ->.
    unfold extern_key in E. destruct (dget batch k) as [r|]; [|discriminate]. exists r. split; [reflexivity|].
    destruct (List.length (r_shape r) =? List.length dims) eqn:El; [|discriminate]. cbn [assert_ bind] in E.
    destruct (static_match dims (r_shape r)) eqn:Em; [|discriminate]. split; [apply Nat.eqb_eq; exact El|]. apply S. exact Em. }
  unfold to_extern. intros H. destruct batch as [|x batch]; [discriminate|]. split; [discriminate|]. cbn [List.length Nat.eqb negb assert_ bind] in H.
  destruct template as [|[k0 [|b ds]] template]; [discriminate|discriminate|]. exact (K _ _ _ _ H).
Qed.
Print Assumptions C104_accepted.
