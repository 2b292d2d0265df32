From Coq Require Import Relations.
From Verif Require Import Base ListLemmas SameAsModel SameAsSpec.

(** ** Chains *)
Lemma chain_fun : forall h i b, chain h i b -> forall b', chain h i b' -> b = b'.
Proof.
  intros h i b H. induction H as [i E|i j b E H IH]; intros b' H'; destruct H' as [i' E'|i' j' b' E' H']; try congruence.
  assert (j' = j) by congruence. subst j'. apply IH. exact H'.
Qed.
Lemma chain_base : forall h i b, chain h i b -> same_as h b = None.
Proof. intros h i b H. induction H; assumption. Qed.
(** The number of steps *)
Inductive chainn (h : heap) : nat -> nat -> nat -> Prop :=
| chainn_end i : same_as h i = None -> chainn h i i 0
| chainn_step i j b k : same_as h i = Some j -> chainn h j b k -> chainn h i b (S k).
Lemma chain_n : forall h i b, chain h i b -> exists k, chainn h i b k.
Proof. intros h i b H. induction H as [i E|i j b E H [k IH]]; [exists 0; constructor; exact E|exists (S k); econstructor; eassumption]. Qed.
Lemma chainn_fun : forall h i b k, chainn h i b k -> forall b' k', chainn h i b' k' -> k = k'.
Proof.
  intros h i b k H. induction H as [i E|i j b k E H IH]; intros b' k' H'; destruct H' as [i' E'|i' j' b' k' E' H']; try congruence.
  assert (j' = j) by congruence. subst j'. f_equal. eapply IH. exact H'.
Qed.
Lemma chainn_nodes : forall h i b k, wf h -> i < h_n h -> chainn h i b k ->
  exists l, length l = S k /\ NoDup l /\ (forall x, In x l -> x < h_n h) /\ (forall x, In x l -> exists m, m <= k /\ chainn h x b m).
Proof.
  intros h i b k W Hi H. induction H as [i E|i j b k E H IH].
  - exists [i]. split; [reflexivity|]. split; [repeat constructor; intros []|]. split; intros x [<-|[]]; [exact Hi|]. exists 0. split; [lia|constructor; exact E].
  - destruct IH as (l & L1 & L2 & L3 & L4); [apply (W i Hi); exact E|]. exists (i :: l). split; [cbn; lia|]. split; [|split].
    + constructor; [|exact L2]. intros Q. destruct (L4 i Q) as (m & Hm & C). assert (m = S k); [|lia]. eapply chainn_fun; [exact C|]. econstructor; eassumption.
    + intros x [<-|Q]; [exact Hi|apply L3; exact Q].
    + intros x [<-|Q]; [exists (S k); split; [lia|econstructor; eassumption]|]. destruct (L4 x Q) as (m & Hm & C). exists m. split; [lia|exact C].
Qed.
Lemma base_fuel : forall h i b k, chainn h i b k -> forall f, k <= f -> base_ f h i = Some b.
Proof.
  intros h i b k H. induction H as [i E|i j b k E H IH]; intros f Hf; destruct f as [|f]; cbn [base_]; rewrite E; try reflexivity; [lia|]. apply IH. lia.
Qed.
Lemma base_chain : forall f h i b, base_ f h i = Some b -> chain h i b.
Proof.
  induction f as [|f IH]; intros h i b H; cbn [base_] in H; destruct (same_as h i) as [j|] eqn:E; try discriminate.
  - injection H as <-. constructor. exact E.
  - econstructor; [exact E|]. apply IH. exact H.
  - injection H as <-. constructor. exact E.
Qed.
Lemma chain_base_ : forall h i b, wf h -> i < h_n h -> chain h i b -> base_ (h_n h) h i = Some b.
Proof.
  intros h i b W Hi H. destruct (chain_n h i b H) as [k K]. apply (base_fuel h i b k K).
  destruct (chainn_nodes h i b k W Hi K) as (l & L1 & L2 & L3 & _).
  assert (length l <= length (seq 0 (h_n h))); [|rewrite seq_length in *; lia]. apply NoDup_incl_length; [exact L2|]. intros x Hx. apply in_seq. specialize (L3 x Hx). lia.
Qed.
Lemma get_base_ok : forall h i b, wf h -> i < h_n h -> chain h i b -> get_same_base h i = DOk b.
Proof. intros h i b W Hi H. unfold get_same_base. rewrite (chain_base_ h i b W Hi H). reflexivity. Qed.
Lemma get_base_chain : forall h i b, get_same_base h i = DOk b -> chain h i b.
Proof. intros h i b H. unfold get_same_base in H. destruct (base_ (h_n h) h i) eqn:E; [|discriminate]. injection H as <-. apply base_chain in E. exact E. Qed.
Lemma chain_lt : forall h i b, wf h -> i < h_n h -> chain h i b -> b < h_n h.
Proof. intros h i b W Hi H. induction H as [i E|i j b E H IH]; [exact Hi|]. apply IH. apply (W i Hi). exact E. Qed.

(** ** What does not change [same_as] *)
Record sim (h h' : heap) : Prop := Sim {
  sim_n : h_n h' = h_n h;
  sim_same : forall i, same_as h' i = same_as h i;
  sim_kind : forall i, kind_of h' i = kind_of h i;
  sim_special : forall i, special h' i = special h i }.
Lemma sim_refl : forall h, sim h h.
Proof. intros h. constructor; reflexivity. Qed.
Lemma sim_trans : forall h1 h2 h3, sim h1 h2 -> sim h2 h3 -> sim h1 h3.
Proof. intros h1 h2 h3 [A1 A2 A3 A4] [B1 B2 B3 B4]. constructor; intros; congruence. Qed.
Lemma sim_set : forall h i f, (forall d, e_same (get_extra (f d)) = e_same (get_extra d) /\ e_kind (get_extra (f d)) = e_kind (get_extra d) /\ e_special (get_extra (f d)) = e_special (get_extra d)) -> sim h (set_dim h i f).
Proof.
  intros h i f H. constructor; [reflexivity| | |]; intros j; unfold same_as, kind_of, special, set_dim; cbn [h_dim]; destruct (j =? i); try reflexivity; apply H.
Qed.
Ltac simset := apply sim_set; intros d; unfold with_extra, if_extra, with_dyn, with_size, get_extra; destruct d as [dn dc ds dd [de|]]; cbn; repeat split; reflexivity.
Lemma sim_raw : forall h nt r, sim h (Heap (h_n h) (h_dim h) nt r).
Proof. intros. constructor; reflexivity. Qed.
Lemma sim_reset_one : forall h i, sim h (reset_one h i).
Proof. intros h i. unfold reset_one. eapply sim_trans; [apply sim_raw|]. simset. Qed.
Lemma sim_reset : forall f h i, sim h (reset_raw f h i).
Proof.
  induction f as [|f IH]; intros h i; cbn [reset_raw]; [destruct (same_as h i); apply sim_reset_one|]. destruct (same_as h i); [|apply sim_reset_one].
  eapply sim_trans; [apply sim_reset_one|apply IH].
Qed.
Lemma sim_vocab : forall h i v, sim h (set_vocab h i v).
Proof. intros h i v. unfold set_vocab. destruct (opt_eqb v (vocab h i)); [apply sim_refl|]. destruct (base_ (h_n h) h i); [|apply sim_refl]. simset. Qed.
Lemma sim_prepare : forall h a ab ob h', prepare h a ab ob = DOk h' -> sim h h'.
Proof.
  intros h a ab ob h' H. unfold prepare in H.
  set (h1 := set_dim h a (if_extra clear_derived)) in H. assert (S1 : sim h h1) by (unfold h1; simset).
  set (h2 := if has (op_of h1 ob) then _ else h1) in H.
  assert (S2 : sim h1 h2) by (unfold h2; destruct (has (op_of h1 ob)); [eapply sim_trans; apply sim_reset|apply sim_refl]).
  assert (S3 : sim h h2) by (eapply sim_trans; eassumption). clearbody h2. clear h1 S1 S2.
  destruct (d_extra (h_dim h2 ab)) as [e|]; [|injection H as <-; exact S3].
  destruct (e_cache e) as [|kv c], (d_extra (h_dim h2 ob)) as [eo|]; try discriminate; injection H as <-; try exact S3;
    (eapply sim_trans; [exact S3|]; eapply sim_trans; [|simset]; simset).
Qed.
Lemma sim_finish : forall h a ab ob sa sb, sim h (finish h a ab ob sa sb).
Proof.
  intros h a ab ob sa sb. unfold finish. set (h1 := if has (vocab h a) && negb (has (vocab h ob)) then _ else _).
  assert (S1 : sim h h1). { unfold h1. destruct (_ && _); [apply sim_vocab|]. destruct (_ && _); [apply sim_vocab|apply sim_refl]. }
  clearbody h1. set (h2 := set_dim h1 a _). assert (S2 : sim h h2) by (eapply sim_trans; [exact S1|]; unfold h2; simset). clearbody h2. clear S1.
  set (h3 := set_dim h2 ab _). assert (S3 : sim h h3) by (eapply sim_trans; [exact S2|]; unfold h3; simset). clearbody h3. clear S2.
  destruct (subset h3 sb sa); [exact S3|]. destruct (_ && _); [eapply sim_trans; [exact S3|]; simset|]. destruct (_ && _); [eapply sim_trans; [exact S3|]; simset|exact S3].
Qed.
(** [link] only sets [same_as] of [a]. *)
Record relink (h h' : heap) (a ob : nat) : Prop := Relink {
  rl_n : h_n h' = h_n h;
  rl_same : forall i, same_as h' i = if i =? a then Some ob else same_as h i;
  rl_kind : forall i, kind_of h' i = kind_of h i;
  rl_special : forall i, special h' i = special h i }.
Lemma relink_sim : forall h1 h2 h3 a ob, relink h1 h2 a ob -> sim h2 h3 -> relink h1 h3 a ob.
Proof. intros h1 h2 h3 a ob [A1 A2 A3 A4] [B1 B2 B3 B4]. constructor; intros; rewrite ?B1, ?B2, ?B3, ?B4, ?A1, ?A2, ?A3, ?A4; reflexivity. Qed.
Lemma sim_relink : forall h1 h2 h3 a ob, sim h1 h2 -> relink h2 h3 a ob -> relink h1 h3 a ob.
Proof. intros h1 h2 h3 a ob [B1 B2 B3 B4] [A1 A2 A3 A4]. constructor; intros; rewrite ?A1, ?A2, ?A3, ?A4, ?B1, ?B2, ?B3, ?B4; reflexivity. Qed.
Lemma relink_link : forall h a b ob h', link h a b ob = DOk h' -> relink h h' a ob.
Proof.
  intros h a b ob h' H. unfold link in H.
  set (h1 := set_dim h a (with_extra (set_same (Some ob)))) in H.
  assert (R1 : relink h h1 a ob).
  { unfold h1. constructor; [reflexivity| | |]; intros i; unfold same_as, kind_of, special, set_dim; cbn [h_dim]; destruct (i =? a); reflexivity. }
  clearbody h1. set (h2 := if has (raw_of h1 a) && _ && _ then _ else h1) in H.
  assert (R2 : relink h h2 a ob). { unfold h2. destruct (_ && _ && _); [eapply relink_sim; [exact R1|simset]|exact R1]. }
  clearbody h2. clear R1. set (h3 := if negb (has (dyn_of h2 a)) then _ else _) in H.
  assert (R3 : relink h h3 a ob). { unfold h3. destruct (negb _); [eapply relink_sim; [exact R2|simset]|]. destruct (negb _); [eapply relink_sim; [exact R2|simset]|exact R2]. }
  clearbody h3. clear R2 h1 h2.
  match type of H with dbind ?e _ = _ => destruct e as [h4|] eqn:E4; [|discriminate] end. cbn [dbind] in H.
  assert (R4 : relink h h4 a ob).
  { destruct (_ && _) in E4; [|injection E4 as <-; exact R3]. destruct (dyn_of h3 ob); [|discriminate].
    destruct (has (h_raw h3 n)); injection E4 as <-; [|exact R3]. eapply relink_sim; [exact R3|]. eapply sim_trans; [apply sim_raw|]. simset. }
  clear E4 R3. destruct (is_dim_known h4 a && is_dim_known h4 b).
  - destruct (opt_eqb (size_of h4 a) (size_of h4 b)); cbn [dassert dbind] in H; [|discriminate]. injection H as <-. exact R4.
  - destruct (is_dim_known h4 a); [injection H as <-; eapply relink_sim; [exact R4|simset]|].
    destruct (is_dim_known h4 b); injection H as <-; [eapply relink_sim; [exact R4|simset]|exact R4].
Qed.

(** ** Linking a chain to another base *)
Lemma chain_relink : forall h h' a ob, relink h h' a ob -> a <> ob -> same_as h ob = None -> forall i b, chain h i b ->
  chain h' i b \/ (chain h' i ob /\ chain h a b).
Proof.
  intros h h' a ob R Hne Eo i b H.
  assert (Ca : chain h' a ob).
  { econstructor; [rewrite (rl_same _ _ _ _ R), Nat.eqb_refl; reflexivity|]. constructor. rewrite (rl_same _ _ _ _ R). destruct (Nat.eqb_spec ob a); [congruence|exact Eo]. }
  induction H as [i E|i j b E H IH].
  - destruct (Nat.eq_dec i a) as [->|Q]; [right; split; [exact Ca|constructor; exact E]|]. left. constructor. rewrite (rl_same _ _ _ _ R). apply Nat.eqb_neq in Q. rewrite Q. exact E.
  - destruct (Nat.eq_dec i a) as [->|Q]; [right; split; [exact Ca|econstructor; eassumption]|]. apply Nat.eqb_neq in Q.
    assert (E' : same_as h' i = Some j) by (rewrite (rl_same _ _ _ _ R), Q; exact E).
    destruct IH as [IH|[IH IH2]]; [left|right; split; [|exact IH2]]; econstructor; eassumption.
Qed.
Lemma wf_relink : forall h h' a ob, relink h h' a ob -> a <> ob -> same_as h ob = None -> ob < h_n h -> wf h -> wf h'.
Proof.
  intros h h' a ob R Hne Eo Hob W i Hi. rewrite (rl_n _ _ _ _ R) in Hi. destruct (W i Hi) as [(b & C) P]. split.
  - destruct (chain_relink h h' a ob R Hne Eo i b C) as [G|[G _]]; eexists; exact G.
  - intros j E. rewrite (rl_n _ _ _ _ R). rewrite (rl_same _ _ _ _ R) in E. destruct (i =? a); [injection E as <-; exact Hob|apply P; exact E].
Qed.

(** ** Declaring *)
Definition merged (h h' : heap) (ab ob : nat) : Prop := wf h' /\ h_n h' = h_n h /\ (forall i, kind_of h' i = kind_of h i) /\ (forall i, special h' i = special h i) /\
  exists c, (c = ab \/ c = ob) /\ forall i b0, chain h i b0 -> chain h' i (if (b0 =? ab) || (b0 =? ob) then c else b0).
Lemma merged_id : forall h x, wf h -> merged h h x x.
Proof.
  intros h x W. split; [exact W|]. repeat (split; [reflexivity|]). exists x. split; [left; reflexivity|]. intros i b0 C.
  destruct (Nat.eqb_spec b0 x) as [->|Q]; exact C.
Qed.
Lemma merged_sym : forall h h' x y, merged h h' x y -> merged h h' y x.
Proof.
  intros h h' x y (W & N & K & Sp & c & Hc & H). split; [exact W|]. split; [exact N|]. split; [exact K|]. split; [exact Sp|]. exists c. split; [destruct Hc; auto|]. intros i b0 C. rewrite orb_comm. apply H. exact C.
Qed.
Lemma declare_merged : forall fuel guard h a b h' ab ob, wf h -> a < h_n h -> b < h_n h -> chain h a ab -> chain h b ob ->
  declare fuel guard h a b = DOk h' -> merged h h' ab ob.
Proof.
  induction fuel as [|f IH]; intros guard h a b h' ab ob W Ha Hb Ca Cb H; [discriminate|]. cbn [declare] in H.
  destruct (negb (special h a) && negb (special h b)); cbn [dassert dbind] in H; [|discriminate].
  destruct (Nat.eqb_spec a b) as [->|Hab]; [injection H as <-; rewrite (chain_fun _ _ _ Ca _ Cb); apply merged_id; exact W|].
  rewrite (get_base_ok h b ob W Hb Cb) in H. cbn [dbind] in H.
  destruct (Nat.eqb_spec a ob) as [->|Hao].
  { cbn [orb] in H. injection H as <-. pose proof (chain_base _ _ _ Cb) as E. rewrite (chain_fun _ _ _ Ca ob (chain_end h ob E)). apply merged_id. exact W. }
  cbn [orb] in H. destruct (opt_eqb (same_as h a) (Some ob)) eqn:Es.
  { injection H as <-. destruct (same_as h a) as [j|] eqn:E; [|discriminate]. cbn [opt_eqb] in Es. apply Nat.eqb_eq in Es. subst j.
    assert (Q : chain h a ob) by (econstructor; [exact E|constructor; eapply chain_base; exact Cb]). rewrite (chain_fun _ _ _ Ca _ Q). apply merged_id. exact W. }
  rewrite (get_base_ok h a ab W Ha Ca) in H. cbn [dbind] in H.
  destruct (Nat.eqb_spec ab ob) as [->|Hbo]; [injection H as <-; apply merged_id; exact W|].
  destruct (swaps h a b ab ob) as [sw|]; cbn [dbind] in H; [|discriminate]. destruct sw.
  { destruct (existsb _ guard); [discriminate|]. apply merged_sym. eapply IH; [| | | | |exact H]; assumption. }
  destruct (get_derived_bases_set h b) as [sb|]; cbn [dbind] in H; [|discriminate]. destruct (get_derived_bases_set h a) as [sa|]; cbn [dbind] in H; [|discriminate].
  destruct (prepare h a ab ob) as [h1|] eqn:E1; cbn [dbind] in H; [|discriminate]. destruct (link h1 a b ob) as [h2|] eqn:E2; cbn [dbind] in H; [|discriminate].
  assert (R : relink h (finish h2 a ab ob sa sb) a ob).
  { eapply relink_sim; [|apply sim_finish]. eapply sim_relink; [eapply sim_prepare; exact E1|eapply relink_link; exact E2]. }
  set (h3 := finish h2 a ab ob sa sb) in *. clearbody h3. clear E1 E2 h1 h2.
  pose proof (chain_base _ _ _ Cb) as Eo. pose proof (chain_lt _ _ _ W Hb Cb) as Lo. pose proof (chain_base _ _ _ Ca) as Eb. pose proof (chain_lt _ _ _ W Ha Ca) as Lb.
  assert (W3 : wf h3) by (eapply wf_relink; eassumption).
  destruct (Nat.eqb_spec ab a) as [->|Hba].
  - injection H as <-. split; [exact W3|]. split; [apply R|]. split; [apply R|]. split; [apply R|]. exists ob. split; [right; reflexivity|]. intros i b0 C.
    destruct (chain_relink h h3 a ob R Hao Eo i b0 C) as [G|[G G2]].
    + destruct (Nat.eqb_spec b0 a) as [->|Q1]; cbn [orb]; [exfalso; apply chain_base in G; rewrite (rl_same _ _ _ _ R), Nat.eqb_refl in G; discriminate|].
      destruct (Nat.eqb_spec b0 ob) as [->|Q2]; exact G.
    + rewrite (chain_fun _ _ _ Ca _ G2), Nat.eqb_refl. exact G.
  - match type of H with context [dassert ?c] => destruct c end; cbn [dassert dbind] in H; [|discriminate]. destruct (existsb _ guard); [discriminate|].
    assert (C1 : chain h3 ab ab) by (constructor; rewrite (rl_same _ _ _ _ R); apply Nat.eqb_neq in Hba; rewrite Hba; exact Eb).
    assert (C2 : chain h3 ob ob) by (constructor; rewrite (rl_same _ _ _ _ R); destruct (Nat.eqb_spec ob a); [congruence|exact Eo]).
    assert (M : merged h3 h' ab ob) by (eapply IH; [exact W3| | |exact C1|exact C2|exact H]; rewrite (rl_n _ _ _ _ R); assumption).
    destruct M as (W' & N & K & Sp & c & Hc & M). split; [exact W'|]. split; [rewrite N; apply R|]. split; [intros; rewrite K; apply R|]. split; [intros; rewrite Sp; apply R|]. exists c. split; [exact Hc|]. intros i b0 C.
    destruct (chain_relink h h3 a ob R Hao Eo i b0 C) as [G|[G G2]]; apply M in G; [exact G|].
    rewrite Nat.eqb_refl, orb_true_r in G. rewrite (chain_fun _ _ _ Ca _ G2) in *. rewrite Nat.eqb_refl. exact G.
Qed.

(** ** User dims stay user dims *)
Lemma auto_set : forall h i f, (forall j, auto h j = false) -> (forall d, e_auto (get_extra d) = false -> e_auto (get_extra (f d)) = false) -> forall j, auto (set_dim h i f) j = false.
Proof. intros h i f H Hf j. unfold auto, set_dim. cbn [h_dim]. destruct (j =? i); [apply Hf|]; apply H. Qed.
Ltac autoset A := apply auto_set; [exact A|]; intros d; unfold with_extra, if_extra, with_dyn, with_size, get_extra; destruct d as [dn dc ds dd [de|]]; cbn; trivial.
Lemma auto_reset_one : forall h i, (forall j, auto h j = false) -> forall j, auto (reset_one h i) j = false.
Proof. intros h i H. unfold reset_one. autoset H. Qed.
Lemma auto_reset : forall f h i, (forall j, auto h j = false) -> forall j, auto (reset_raw f h i) j = false.
Proof. induction f as [|f IH]; intros h i H; cbn [reset_raw]; destruct (same_as h i); try (apply auto_reset_one; exact H). apply IH. apply auto_reset_one. exact H. Qed.
Lemma auto_vocab : forall h i v, (forall j, auto h j = false) -> forall j, auto (set_vocab h i v) j = false.
Proof. intros h i v H. unfold set_vocab. destruct (opt_eqb v (vocab h i)); [exact H|]. destruct (base_ (h_n h) h i); [|exact H]. autoset H. Qed.
Lemma auto_prepare : forall h a ab ob h', (forall j, auto h j = false) -> prepare h a ab ob = DOk h' -> forall j, auto h' j = false.
Proof.
  intros h a ab ob h' A H. unfold prepare in H.
  set (h1 := set_dim h a (if_extra clear_derived)) in H. assert (S1 : forall j, auto h1 j = false) by (unfold h1; autoset A).
  set (h2 := if has (op_of h1 ob) then _ else h1) in H.
  assert (S2 : forall j, auto h2 j = false) by (unfold h2; destruct (has (op_of h1 ob)); [apply auto_reset, auto_reset|]; exact S1).
  clearbody h2. clear h1 S1. destruct (d_extra (h_dim h2 ab)) as [e|]; [|injection H as <-; exact S2].
  destruct (e_cache e) as [|kv c], (d_extra (h_dim h2 ob)) as [eo|]; try discriminate; injection H as <-; try exact S2;
    (apply auto_set; [autoset S2|]; intros d; unfold with_extra, get_extra; destruct d as [dn dc ds dd [de|]]; cbn; trivial).
Qed.
Lemma auto_link : forall h a b ob h', (forall j, auto h j = false) -> link h a b ob = DOk h' -> forall j, auto h' j = false.
Proof.
  intros h a b ob h' A H. unfold link in H.
  set (h1 := set_dim h a (with_extra (set_same (Some ob)))) in H. assert (R1 : forall j, auto h1 j = false) by (unfold h1; autoset A).
  clearbody h1. set (h2 := if has (raw_of h1 a) && _ && _ then _ else h1) in H.
  assert (R2 : forall j, auto h2 j = false). { unfold h2. destruct (_ && _ && _); [autoset R1|exact R1]. }
  clearbody h2. clear R1. set (h3 := if negb (has (dyn_of h2 a)) then _ else _) in H.
  assert (R3 : forall j, auto h3 j = false). { unfold h3. destruct (negb _); [autoset R2|]. destruct (negb _); [autoset R2|exact R2]. }
  clearbody h3. clear R2 h1 h2.
  match type of H with dbind ?e _ = _ => destruct e as [h4|] eqn:E4; [|discriminate] end. cbn [dbind] in H.
  assert (R4 : forall j, auto h4 j = false).
  { destruct (_ && _) in E4; [|injection E4 as <-; exact R3]. destruct (dyn_of h3 ob); [|discriminate].
    destruct (has (h_raw h3 n)); injection E4 as <-; [|exact R3]. autoset R3. }
  clear E4 R3. destruct (is_dim_known h4 a && is_dim_known h4 b).
  - destruct (opt_eqb (size_of h4 a) (size_of h4 b)); cbn [dassert dbind] in H; [|discriminate]. injection H as <-. exact R4.
  - destruct (is_dim_known h4 a); [injection H as <-; autoset R4|]. destruct (is_dim_known h4 b); injection H as <-; [autoset R4|exact R4].
Qed.
Lemma auto_finish : forall h a ab ob sa sb, (forall j, auto h j = false) -> forall j, auto (finish h a ab ob sa sb) j = false.
Proof.
  intros h a ab ob sa sb A. unfold finish. set (h1 := if has (vocab h a) && negb (has (vocab h ob)) then _ else _).
  assert (S1 : forall j, auto h1 j = false). { unfold h1. destruct (_ && _); [apply auto_vocab; exact A|]. destruct (_ && _); [apply auto_vocab|]; exact A. }
  clearbody h1. rewrite (S1 ob). set (h2 := set_dim h1 a _). assert (S2 : forall j, auto h2 j = false) by (unfold h2; apply auto_set; [exact S1|reflexivity]). clearbody h2. clear S1.
  rewrite (S2 ob). set (h3 := set_dim h2 ab _). assert (S3 : forall j, auto h3 j = false) by (unfold h3; apply auto_set; [exact S2|reflexivity]). clearbody h3. clear S2.
  destruct (subset h3 sb sa); [exact S3|]. destruct (_ && _); [autoset S3|]. destruct (_ && _); [autoset S3|exact S3].
Qed.
Lemma auto_declare : forall fuel guard h a b h', (forall j, auto h j = false) -> declare fuel guard h a b = DOk h' -> forall j, auto h' j = false.
Proof.
  induction fuel as [|f IH]; intros guard h a b h' A H; [discriminate|]. cbn [declare] in H.
  destruct (negb (special h a) && negb (special h b)); cbn [dassert dbind] in H; [|discriminate].
  destruct (a =? b); [injection H as <-; exact A|]. destruct (get_same_base h b) as [ob|]; cbn [dbind] in H; [|discriminate].
  destruct (_ || _) in H; [injection H as <-; exact A|]. destruct (get_same_base h a) as [ab|]; cbn [dbind] in H; [|discriminate].
  destruct (ab =? ob) eqn:Q; [injection H as <-; exact A|]. destruct (swaps h a b ab ob) as [sw|]; cbn [dbind] in H; [|discriminate]. destruct sw.
  { destruct (existsb _ guard); [discriminate|]. eapply IH; eassumption. }
  destruct (get_derived_bases_set h b) as [sb|]; cbn [dbind] in H; [|discriminate]. destruct (get_derived_bases_set h a) as [sa|]; cbn [dbind] in H; [|discriminate].
  destruct (prepare h a ab ob) as [h1|] eqn:E1; cbn [dbind] in H; [|discriminate]. destruct (link h1 a b ob) as [h2|] eqn:E2; cbn [dbind] in H; [|discriminate].
  assert (A3 : forall j, auto (finish h2 a ab ob sa sb) j = false) by (apply auto_finish; eapply auto_link; [|exact E2]; eapply auto_prepare; eassumption).
  destruct (ab =? a); [injection H as <-; exact A3|]. destruct (dassert _); cbn [dbind] in H; [|discriminate]. destruct (existsb _ guard); [discriminate|]. eapply IH; eassumption.
Qed.
Lemma dim_eq_user : forall h i j, wf h -> user_dims h -> i < h_n h -> j < h_n h -> (dim_eq h i j = true <-> same h i j).
Proof.
  intros h i j W U Hi Hj. destruct (W i Hi) as [(a & Ca) _]. destruct (W j Hj) as [(b & Cb) _]. unfold dim_eq. destruct (Nat.eqb_spec i j) as [->|Q].
  - split; [|reflexivity]. intros _. exists a. auto.
  - rewrite (chain_base_ h i a W Hi Ca), (chain_base_ h j b W Hj Cb). destruct (Nat.eqb_spec a b) as [->|Q2].
    + split; [|reflexivity]. intros _. exists b. auto.
    + split.
      * destruct (U a) as [Ua Ka]. destruct (has _ && has _); [|discriminate]. destruct (kind_of h a); cbn [kind_eqb andb]; try (rewrite Ua; discriminate). congruence.
      * intros (c & C1 & C2). exfalso. apply Q2. rewrite (chain_fun _ _ _ Ca _ C1), (chain_fun _ _ _ Cb _ C2). reflexivity.
Qed.

(** ** The union *)
Lemma merged_same : forall h h' a b ab ob, wf h -> chain h a ab -> chain h b ob -> merged h h' ab ob -> forall i j, i < h_n h -> j < h_n h ->
  (same h' i j <-> same h i j \/ (same h i a /\ same h b j) \/ (same h i b /\ same h a j)).
Proof.
  intros h h' a b ab ob W Ca Cb (W' & N & _ & _ & c & Hc & M) i j Hi Hj.
  destruct (W i Hi) as [(bi & Ci) _]. destruct (W j Hj) as [(bj & Cj) _]. pose proof (M i bi Ci) as Mi. pose proof (M j bj Cj) as Mj.
  assert (Sm : forall x y bx by_, chain h x bx -> chain h y by_ -> (same h x y <-> bx = by_)).
  { intros x y bx by_ Cx Cy. split; [intros (z & Z1 & Z2); rewrite (chain_fun _ _ _ Cx _ Z1), (chain_fun _ _ _ Cy _ Z2); reflexivity|]. intros <-. exists bx. auto. }
  rewrite (Sm i j _ _ Ci Cj), (Sm i a _ _ Ci Ca), (Sm b j _ _ Cb Cj), (Sm i b _ _ Ci Cb), (Sm a j _ _ Ca Cj).
  assert (S' : same h' i j <-> (if (bi =? ab) || (bi =? ob) then c else bi) = (if (bj =? ab) || (bj =? ob) then c else bj)).
  { split; [intros (z & Z1 & Z2); rewrite (chain_fun _ _ _ Mi _ Z1), (chain_fun _ _ _ Mj _ Z2); reflexivity|]. intros E. eexists. split; [exact Mi|]. rewrite E. exact Mj. }
  rewrite S'. destruct (Nat.eqb_spec bi ab), (Nat.eqb_spec bi ob), (Nat.eqb_spec bj ab), (Nat.eqb_spec bj ob); cbn [orb]; destruct Hc; subst; split; intros G; try tauto; try lia.
Qed.

(** ** The recursion ends *)
Definition nofuel {A} (r : dres A) : Prop := r <> DErr EFuel.
Lemma nofuel_bind : forall A B (x : dres A) (f : A -> dres B), nofuel x -> (forall v, x = DOk v -> nofuel (f v)) -> nofuel (dbind x f).
Proof. intros A B x f Hx Hf. destruct x as [v|e]; cbn [dbind]; [apply Hf; reflexivity|]. intros [= ->]. apply Hx. reflexivity. Qed.
Lemma nofuel_base : forall h i, nofuel (get_same_base h i).
Proof. intros h i. unfold get_same_base. destruct (base_ (h_n h) h i); discriminate. Qed.
Lemma nofuel_derived : forall f h v i, nofuel (derived_base_ f h v i).
Proof.
  induction f as [|f IH]; intros h v i; cbn [derived_base_]; destruct (same_as h i), (tag_of h i); try discriminate; (destruct (existsb _ v); [discriminate|]); try discriminate; apply IH.
Qed.
Lemma nofuel_undefined : forall f h v i, nofuel (undefined_ f h v i).
Proof.
  induction f as [|f IH]; intros h v i; cbn [undefined_]; destruct (same_as h i), (tag_of h i); try discriminate; (destruct (existsb _ v); [discriminate|]); (destruct (undef h i); [discriminate|]); try discriminate; apply IH.
Qed.
Lemma nofuel_bases : forall f h q v r, nofuel (derived_bases_ f h q v r).
Proof. induction f as [|f IH]; intros h q v r; destruct q; cbn [derived_bases_]; try discriminate. destruct (existsb _ v); apply IH. Qed.
Lemma nofuel_swaps : forall h a b ab ob, nofuel (swaps h a b ab ob).
Proof.
  intros. unfold swaps. apply nofuel_bind; [apply nofuel_derived|]. intros db _. destruct (db =? ab); [discriminate|]. destruct (_ && _); [discriminate|].
  apply nofuel_bind. { destruct (_ && _); [|discriminate]. apply nofuel_bind; [apply nofuel_bases|discriminate]. }
  intros c2 _. destruct c2; [discriminate|]. apply nofuel_bind; [apply nofuel_undefined|]. intros ua _. apply nofuel_bind; [destruct ua; [discriminate|apply nofuel_undefined]|].
  intros c3 _. destruct c3; [discriminate|]. apply nofuel_bind; [apply nofuel_bases|]. intros sb _. apply nofuel_bind; [apply nofuel_bases|]. discriminate.
Qed.
Lemma nofuel_prepare : forall h a ab ob, nofuel (prepare h a ab ob).
Proof. intros. unfold prepare. destruct (d_extra _) as [e|]; [|discriminate]. destruct (e_cache e), (d_extra _); discriminate. Qed.
Lemma nofuel_link : forall h a b ob, nofuel (link h a b ob).
Proof.
  intros. unfold link. apply nofuel_bind.
  - destruct (_ && _); [|discriminate]. destruct (dyn_of _ _); [|discriminate]. destruct (has _); discriminate.
  - intros h4 _. destruct (_ && _); [apply nofuel_bind; [destruct (opt_eqb _ _); discriminate|discriminate]|]. destruct (is_dim_known h4 a); [discriminate|]. destruct (is_dim_known h4 b); discriminate.
Qed.
Definition in_guard (guard : list (nat * nat)) (x y : nat) : bool := existsb (fun k => (fst k =? x) && (snd k =? y)) guard.
Lemma declare_step : forall f guard h a b, wf h -> a < h_n h -> b < h_n h ->
  nofuel (declare (S f) guard h a b)
  \/ (in_guard guard b a = false /\ declare (S f) guard h a b = declare f ((b, a) :: guard) h b a)
  \/ (exists h3 ab ob, same_as h a <> None /\ wf h3 /\ ab < h_n h3 /\ ob < h_n h3 /\ same_as h3 ab = None /\ same_as h3 ob = None /\
        declare (S f) guard h a b = declare f ((ab, ob) :: guard) h3 ab ob).
Proof.
  intros f guard h a b W Ha Hb. cbn [declare].
  destruct (negb (special h a) && negb (special h b)); cbn [dassert dbind]; [|left; discriminate].
  destruct (Nat.eqb_spec a b) as [->|Hab]; [left; discriminate|].
  destruct (W a Ha) as [(ab & Ca) _]. destruct (W b Hb) as [(ob & Cb) _]. rewrite (get_base_ok h b ob W Hb Cb). cbn [dbind].
  destruct (Nat.eqb_spec a ob) as [->|Hao]; [left; discriminate|]. cbn [orb]. destruct (opt_eqb (same_as h a) (Some ob)); [left; discriminate|].
  rewrite (get_base_ok h a ab W Ha Ca). cbn [dbind]. destruct (Nat.eqb_spec ab ob) as [->|Hbo]; [left; discriminate|].
  pose proof (nofuel_swaps h a b ab ob) as F. destruct (swaps h a b ab ob) as [sw|e]; cbn [dbind]; [clear F|left; intros [= ->]; apply F; reflexivity]. destruct sw.
  { fold (in_guard guard b a). destruct (in_guard guard b a) eqn:G; [left; discriminate|]. right. left. split; reflexivity. }
  pose proof (nofuel_bases (work h) h [b] [] []) as F. fold (get_derived_bases_set h b) in F. destruct (get_derived_bases_set h b) as [sb|e]; cbn [dbind]; [clear F|left; intros [= ->]; apply F; reflexivity].
  pose proof (nofuel_bases (work h) h [a] [] []) as F. fold (get_derived_bases_set h a) in F. destruct (get_derived_bases_set h a) as [sa|e]; cbn [dbind]; [clear F|left; intros [= ->]; apply F; reflexivity].
  pose proof (nofuel_prepare h a ab ob) as F. destruct (prepare h a ab ob) as [h1|e] eqn:E1; cbn [dbind]; [clear F|left; intros [= ->]; apply F; reflexivity].
  pose proof (nofuel_link h1 a b ob) as F. destruct (link h1 a b ob) as [h2|e] eqn:E2; cbn [dbind]; [clear F|left; intros [= ->]; apply F; reflexivity].
  assert (R : relink h (finish h2 a ab ob sa sb) a ob).
  { eapply relink_sim; [|apply sim_finish]. eapply sim_relink; [eapply sim_prepare; exact E1|eapply relink_link; exact E2]. }
  set (h3 := finish h2 a ab ob sa sb) in *. clearbody h3. clear E1 E2 h1 h2.
  pose proof (chain_base _ _ _ Cb) as Eo. pose proof (chain_lt _ _ _ W Hb Cb) as Lo. pose proof (chain_base _ _ _ Ca) as Eb. pose proof (chain_lt _ _ _ W Ha Ca) as Lb.
  destruct (Nat.eqb_spec ab a) as [->|Hba]; [left; discriminate|].
  match goal with |- context [dassert ?c] => destruct c end; cbn [dassert dbind]; [|left; discriminate].
  fold (in_guard guard ab ob). destruct (in_guard guard ab ob); [left; discriminate|]. right. right. exists h3, ab, ob.
  split; [intros E; apply Hba; apply (chain_fun _ _ _ Ca); constructor; exact E|]. split; [eapply wf_relink; eassumption|]. rewrite (rl_n _ _ _ _ R). split; [exact Lb|]. split; [exact Lo|].
  rewrite !(rl_same _ _ _ _ R). apply Nat.eqb_neq in Hba. rewrite Hba. destruct (Nat.eqb_spec ob a); [congruence|]. auto.
Qed.
Lemma guard_hit : forall g x y, in_guard ((x, y) :: g) x y = true.
Proof. intros. unfold in_guard. cbn [existsb fst snd]. rewrite !Nat.eqb_refl. reflexivity. Qed.
Lemma guard_more : forall g k x y, in_guard g x y = true -> in_guard (k :: g) x y = true.
Proof. intros g k x y H. unfold in_guard in *. cbn [existsb]. rewrite H. apply orb_true_r. Qed.
Lemma root_fuel0 : forall f guard h a b, wf h -> a < h_n h -> b < h_n h -> same_as h a = None -> in_guard guard b a = true -> nofuel (declare (S f) guard h a b).
Proof.
  intros f guard h a b W Ha Hb Ea G. destruct (declare_step f guard h a b W Ha Hb) as [Q|[[Q _]|(h3 & x & y & Q & _)]]; [exact Q|congruence|congruence].
Qed.
Lemma root_fuel1 : forall f guard h a b, wf h -> a < h_n h -> b < h_n h -> same_as h a = None -> same_as h b = None -> in_guard guard a b = true -> nofuel (declare (S (S f)) guard h a b).
Proof.
  intros f guard h a b W Ha Hb Ea Eb G. destruct (declare_step (S f) guard h a b W Ha Hb) as [Q|[[_ ->]|(h3 & x & y & Q & _)]]; [exact Q| |congruence].
  apply root_fuel0; try assumption. apply guard_more. exact G.
Qed.
Lemma root_fuel : forall f guard h a b, wf h -> a < h_n h -> b < h_n h -> same_as h a = None -> same_as h b = None -> nofuel (declare (S (S (S f))) guard h a b).
Proof.
  intros f guard h a b W Ha Hb Ea Eb. destruct (declare_step (S (S f)) guard h a b W Ha Hb) as [Q|[[_ ->]|(h3 & x & y & Q & _)]]; [exact Q| |congruence].
  apply root_fuel1; try assumption. apply guard_hit.
Qed.
Lemma fuel0 : forall f guard h a b, wf h -> a < h_n h -> b < h_n h -> in_guard guard b a = true -> nofuel (declare (S (S (S (S f)))) guard h a b).
Proof.
  intros f guard h a b W Ha Hb G. destruct (declare_step (S (S (S f))) guard h a b W Ha Hb) as [Q|[[Q _]|(h3 & x & y & _ & W3 & Hx & Hy & Ex & Ey & ->)]]; [exact Q|congruence|].
  apply root_fuel; assumption.
Qed.
Lemma fuel1 : forall f guard h a b, wf h -> a < h_n h -> b < h_n h -> in_guard guard a b = true -> nofuel (declare (S (S (S (S (S f))))) guard h a b).
Proof.
  intros f guard h a b W Ha Hb G. destruct (declare_step (S (S (S (S f)))) guard h a b W Ha Hb) as [Q|[[_ ->]|(h3 & x & y & _ & W3 & Hx & Hy & Ex & Ey & ->)]]; [exact Q| |].
  - apply fuel0; try assumption. apply guard_more. exact G.
  - apply root_fuel; assumption.
Qed.
Lemma declare_fuel : forall h a b, wf h -> a < h_n h -> b < h_n h -> nofuel (declare_same_as h a b).
Proof.
  intros h a b W Ha Hb. unfold declare_same_as. destruct (declare_step 7 [] h a b W Ha Hb) as [Q|[[_ ->]|(h3 & x & y & _ & W3 & Hx & Hy & Ex & Ey & ->)]]; [exact Q| |].
  - apply fuel1; try assumption. apply guard_hit.
  - apply root_fuel; assumption.
Qed.

(** ** Sizes *)
Definition keeps_size (h h' : heap) : Prop := forall i, size_of h' i = size_of h i.
Lemma ks_set : forall h i f, (forall d, d_size (f d) = d_size d) -> keeps_size h (set_dim h i f).
Proof. intros h i f H j. unfold size_of, set_dim. cbn [h_dim]. destruct (j =? i); [apply H|reflexivity]. Qed.
Lemma ks_trans : forall h1 h2 h3, keeps_size h1 h2 -> keeps_size h2 h3 -> keeps_size h1 h3.
Proof. intros h1 h2 h3 A B i. rewrite B. apply A. Qed.
Lemma ks_refl : forall h, keeps_size h h.
Proof. intros h i. reflexivity. Qed.
Ltac ksset := apply ks_set; intros d; unfold with_extra, if_extra, with_dyn, get_extra; destruct d as [dn dc ds dd [de|]]; reflexivity.
Lemma ks_reset_one : forall h i, keeps_size h (reset_one h i).
Proof. intros h i. unfold reset_one. set (h1 := Heap _ _ _ _). apply (ks_trans h h1); [intros j; reflexivity|]. ksset. Qed.
Lemma ks_reset : forall f h i, keeps_size h (reset_raw f h i).
Proof. induction f as [|f IH]; intros h i; cbn [reset_raw]; destruct (same_as h i); try apply ks_reset_one. eapply ks_trans; [apply ks_reset_one|apply IH]. Qed.
Lemma ks_prepare : forall h a ab ob h', prepare h a ab ob = DOk h' -> keeps_size h h'.
Proof.
  intros h a ab ob h' H. unfold prepare in H.
  set (h1 := set_dim h a (if_extra clear_derived)) in H. assert (S1 : keeps_size h h1) by (unfold h1; ksset).
  set (h2 := if has (op_of h1 ob) then _ else h1) in H.
  assert (S2 : keeps_size h1 h2) by (unfold h2; destruct (has (op_of h1 ob)); [eapply ks_trans; apply ks_reset|apply ks_refl]).
  assert (S3 : keeps_size h h2) by (eapply ks_trans; eassumption). clearbody h2. clear h1 S1 S2.
  destruct (d_extra (h_dim h2 ab)) as [e|]; [|injection H as <-; exact S3].
  destruct (e_cache e) as [|kv c], (d_extra (h_dim h2 ob)) as [eo|]; try discriminate; injection H as <-; try exact S3;
    (eapply ks_trans; [exact S3|]; eapply ks_trans; [|ksset]; ksset).
Qed.
Lemma ks_vocab : forall h i v, keeps_size h (set_vocab h i v).
Proof. intros h i v. unfold set_vocab. destruct (opt_eqb v (vocab h i)); [apply ks_refl|]. destruct (base_ (h_n h) h i); [|apply ks_refl]. ksset. Qed.
Lemma ks_finish : forall h a ab ob sa sb, keeps_size h (finish h a ab ob sa sb).
Proof.
  intros h a ab ob sa sb. unfold finish. set (h1 := if has (vocab h a) && negb (has (vocab h ob)) then _ else _).
  assert (S1 : keeps_size h h1). { unfold h1. destruct (_ && _); [apply ks_vocab|]. destruct (_ && _); [apply ks_vocab|apply ks_refl]. }
  clearbody h1. set (h2 := set_dim h1 a _). assert (S2 : keeps_size h h2) by (eapply ks_trans; [exact S1|]; unfold h2; ksset). clearbody h2. clear S1.
  set (h3 := set_dim h2 ab _). assert (S3 : keeps_size h h3) by (eapply ks_trans; [exact S2|]; unfold h3; ksset). clearbody h3. clear S2.
  destruct (subset h3 sb sa); [exact S3|]. destruct (_ && _); [eapply ks_trans; [exact S3|]; ksset|]. destruct (_ && _); [eapply ks_trans; [exact S3|]; ksset|exact S3].
Qed.
Lemma opt_eqb_eq : forall a b, opt_eqb a b = true -> a = b.
Proof. intros [x|] [y|] H; try discriminate; [|reflexivity]. cbn in H. apply Nat.eqb_eq in H. congruence. Qed.
(** [link] makes the sizes of [a] and [b] equal, and never forgets one. *)
Lemma link_size : forall h a b ob h', a <> b -> link h a b ob = DOk h' ->
  size_of h' a = size_of h' b /\ (forall s, size_of h a = Some s \/ size_of h b = Some s -> size_of h' a = Some s).
Proof.
  intros h a b ob h' Hab H. unfold link in H.
  set (h1 := set_dim h a (with_extra (set_same (Some ob)))) in H. assert (R1 : keeps_size h h1) by (unfold h1; ksset).
  clearbody h1. set (h2 := if has (raw_of h1 a) && _ && _ then _ else h1) in H.
  assert (R2 : keeps_size h h2). { unfold h2. destruct (_ && _ && _); [eapply ks_trans; [exact R1|ksset]|exact R1]. }
  clearbody h2. clear R1. set (h3 := if negb (has (dyn_of h2 a)) then _ else _) in H.
  assert (R3 : keeps_size h h3). { unfold h3. destruct (negb _); [eapply ks_trans; [exact R2|ksset]|]. destruct (negb _); [eapply ks_trans; [exact R2|ksset]|exact R2]. }
  clearbody h3. clear R2 h1 h2.
  match type of H with dbind ?e _ = _ => destruct e as [h4|] eqn:E4; [|discriminate] end. cbn [dbind] in H.
  assert (R4 : keeps_size h h4).
  { destruct (_ && _) in E4; [|injection E4 as <-; exact R3]. destruct (dyn_of h3 ob); [|discriminate].
    destruct (has (h_raw h3 n)); injection E4 as <-; [|exact R3]. eapply ks_trans; [exact R3|]. set (h5 := Heap _ _ _ _). apply (ks_trans h3 h5); [intros j; reflexivity|]. ksset. }
  clear E4 R3. rewrite <- (R4 a), <- (R4 b). clear R4. pose proof Hab as Hba. apply Nat.eqb_neq in Hab. assert (Hba' : (b =? a) = false) by (apply Nat.eqb_neq; congruence).
  assert (U : forall i, is_dim_known h4 i = false -> size_of h4 i = None). { intros i E. unfold is_dim_known in E. apply orb_false_iff in E. destruct E as [_ E]. destruct (size_of h4 i); [discriminate|reflexivity]. }
  destruct (is_dim_known h4 a) eqn:Ka, (is_dim_known h4 b) eqn:Kb; cbn [andb] in H.
  - destruct (opt_eqb (size_of h4 a) (size_of h4 b)) eqn:E; cbn [dassert dbind] in H; [|discriminate]. injection H as <-. apply opt_eqb_eq in E. split; [exact E|]. intros s [Q|Q]; congruence.
  - injection H as <-. unfold size_of in *. cbn [set_dim h_dim]. rewrite Nat.eqb_refl, Hab. cbn [with_size d_size]. split; [reflexivity|]. intros s [Q|Q]; [exact Q|]. rewrite (U b Kb) in Q. discriminate.
  - injection H as <-. unfold size_of in *. cbn [set_dim h_dim]. rewrite Nat.eqb_refl, Hba'. cbn [with_size d_size]. split; [reflexivity|]. intros s [Q|Q]; [rewrite (U a Ka) in Q; discriminate|exact Q].
  - injection H as <-. rewrite (U a Ka), (U b Kb). split; [reflexivity|]. intros s [Q|Q]; discriminate.
Qed.
(** Two dims for which nothing was declared yet *)
Lemma declare_roots : forall fuel guard h a b h', a <> b -> same_as h a = None -> same_as h b = None -> declare fuel guard h a b = DOk h' ->
  size_of h' a = size_of h' b /\ (forall s, size_of h a = Some s \/ size_of h b = Some s -> size_of h' a = Some s).
Proof.
  induction fuel as [|f IH]; intros guard h a b h' Hab Ea Eb H; [discriminate|]. cbn [declare] in H.
  destruct (negb (special h a) && negb (special h b)); cbn [dassert dbind] in H; [|discriminate].
  assert (Ba : forall i, same_as h i = None -> get_same_base h i = DOk i) by (intros i E; unfold get_same_base; destruct (h_n h); cbn [base_]; rewrite E; reflexivity).
  pose proof Hab as Hab'. apply Nat.eqb_neq in Hab'. rewrite Hab', (Ba b Eb) in H. cbn [dbind] in H. rewrite Hab', Ea in H. cbn [orb opt_eqb] in H. rewrite (Ba a Ea) in H. cbn [dbind] in H. rewrite Hab' in H.
  destruct (swaps h a b a b) as [sw|]; cbn [dbind] in H; [|discriminate]. destruct sw.
  { destruct (existsb _ guard); [discriminate|]. destruct (IH _ _ _ _ _ (not_eq_sym Hab) Eb Ea H) as [I1 I2]. split; [symmetry; exact I1|]. intros s Q. rewrite <- I1. apply I2. tauto. }
  destruct (get_derived_bases_set h b) as [sb|]; cbn [dbind] in H; [|discriminate]. destruct (get_derived_bases_set h a) as [sa|]; cbn [dbind] in H; [|discriminate].
  destruct (prepare h a a b) as [h1|] eqn:E1; cbn [dbind] in H; [|discriminate]. destruct (link h1 a b b) as [h2|] eqn:E2; cbn [dbind] in H; [|discriminate].
  rewrite Nat.eqb_refl in H. injection H as <-. rewrite !(ks_finish h2 a a b sa sb). pose proof (ks_prepare _ _ _ _ _ E1) as K. rewrite <- (K a), <- (K b). eapply link_size; eassumption.
Qed.

(** A new dim without anything known takes over all of the other one. *)
Lemma declare_blank : forall h a b, a <> b -> a < h_n h -> blank h a -> plain h b ->
  exists h', declare_same_as h a b = DOk h' /\ chain h' a b /\ chain h' b b /\ size_of h' a = size_of h b /\ dyn_of h' a = dyn_of h b /\
    (forall t, h_raw h' t = h_raw h t) /\ (forall i, i <> a -> h_dim h' i = h_dim h i).
Proof.
  intros h a b Hab La (Xa & Da & Za) (Sb & Tb & Ob & Pb & Ub & Zd).
  assert (Ga : get_extra (h_dim h a) = extra0) by (unfold get_extra; rewrite Xa; reflexivity).
  assert (Sa : same_as h a = None) by (unfold same_as; rewrite Ga; reflexivity).
  assert (Ta : tag_of h a = None) by (unfold tag_of; rewrite Ga; reflexivity).
  assert (Oa : op_of h a = None) by (unfold op_of; rewrite Ga; reflexivity).
  assert (Pa : special h a = false) by (unfold special; rewrite Ga; reflexivity).
  assert (Ua : undef h a = false) by (unfold undef; rewrite Ga; reflexivity).
  assert (Ka : kind_of h a = Unspecified) by (unfold kind_of; rewrite Ga; reflexivity).
  assert (Aa : auto h a = false) by (unfold auto; rewrite Ga; reflexivity).
  assert (Bb : forall i, same_as h i = None -> base_ (h_n h) h i = Some i) by (intros i E; destruct (h_n h); cbn [base_]; rewrite E; reflexivity).
  pose proof Hab as Q. apply Nat.eqb_neq in Q. assert (Q' : (b =? a) = false) by (apply Nat.eqb_neq; congruence).
  assert (Sets : forall i, same_as h i = None -> tag_of h i = None -> op_of h i = None -> get_derived_bases_set h i = DOk [(dim_hash h i, i)]).
  { intros i E1 E2 E3. unfold get_derived_bases_set, work. cbn [derived_bases_]. rewrite E1. cbn [existsb]. rewrite E3, E2. cbn [app]. unfold set_add, set_in. cbn [existsb].
    destruct (list_sum _); reflexivity. }
  assert (Hh : hkey_eqb (dim_hash h a) (dim_hash h b) = false /\ hkey_eqb (dim_hash h b) (dim_hash h a) = false).
  { unfold dim_hash. rewrite (Bb a Sa), (Bb b Sb). rewrite Pa, Ka, Aa. cbn [kind_eqb]. destruct (special h b); [|destruct (kind_eqb (kind_of h b) Batch); [|destruct (auto h b)]]; cbn [hkey_eqb]; rewrite ?Q, ?Q'; auto. }
  assert (Sw : swaps h a b a b = DOk false).
  { unfold swaps, get_same_derived_base. replace (derived_base_ (h_n h) h [] b) with (@DOk nat b) by (destruct (h_n h); cbn [derived_base_]; rewrite Sb, Tb; reflexivity). cbn [dbind]. rewrite Q'.
    unfold is_dim_known at 1. rewrite Ka, Da, Za. cbn [kind_eqb has orb andb]. rewrite Oa. cbn [has andb dbind]. unfold undefined.
    replace (undefined_ (h_n h) h [] a) with (@DOk bool false) by (destruct (h_n h); cbn [undefined_]; rewrite Sa, Ta, Ua; reflexivity).
    replace (undefined_ (h_n h) h [] b) with (@DOk bool false) by (destruct (h_n h); cbn [undefined_]; rewrite Sb, Tb, Ub; reflexivity). cbn [dbind].
    rewrite (Sets a), (Sets b) by assumption. cbn [dbind]. unfold subset. cbn [length Nat.leb Nat.eqb forallb]. unfold set_in. cbn [existsb fst snd]. destruct Hh as [H1 H2]. rewrite H1, H2. reflexivity. }
  assert (Pre : prepare h a a b = DOk (set_dim h a (if_extra clear_derived))).
  { unfold prepare. replace (op_of (set_dim h a (if_extra clear_derived)) b) with (op_of h b) by (unfold op_of, set_dim; cbn [h_dim]; rewrite Q'; reflexivity). rewrite Ob. cbn [has].
    replace (d_extra (h_dim (set_dim h a (if_extra clear_derived)) a)) with (@None extra) by (unfold set_dim; cbn [h_dim]; rewrite Nat.eqb_refl; unfold if_extra; rewrite Xa; symmetry; exact Xa). reflexivity. }
  set (h1 := set_dim h a (if_extra clear_derived)) in Pre.
  assert (D1 : forall i, h_dim h1 i = h_dim h i). { intros i. unfold h1, set_dim. cbn [h_dim]. destruct (Nat.eqb_spec i a) as [->|]; [|reflexivity]. unfold if_extra. rewrite Xa. reflexivity. }
  assert (N1 : h_n h1 = h_n h /\ h_raw h1 = h_raw h) by (split; reflexivity). clearbody h1.
  (* the state after [link] *)
  assert (Lk : exists h2, link h1 a b b = DOk h2 /\ h_n h2 = h_n h /\ h_raw h2 = h_raw h /\ (forall i, i <> a -> h_dim h2 i = h_dim h i) /\
      size_of h2 a = size_of h b /\ dyn_of h2 a = dyn_of h b /\ d_extra (h_dim h2 a) = Some (set_same (Some b) extra0)).
  { unfold link. set (g1 := set_dim h1 a (with_extra (set_same (Some b)))).
    assert (Gd : forall i, i <> a -> h_dim g1 i = h_dim h i). { intros i Hi. unfold g1, set_dim. cbn [h_dim]. apply Nat.eqb_neq in Hi. rewrite Hi. apply D1. }
    assert (Ge : h_dim g1 a = with_extra (set_same (Some b)) (h_dim h a)). { unfold g1, set_dim. cbn [h_dim]. rewrite Nat.eqb_refl, D1. reflexivity. }
    assert (Gn : h_n g1 = h_n h /\ h_raw g1 = h_raw h) by (split; [exact (proj1 N1)|exact (proj2 N1)]). clearbody g1.
    assert (G1 : dyn_of g1 a = None). { unfold dyn_of. rewrite Ge. exact Da. }
    replace (raw_of g1 a) with (@None nat) by (unfold raw_of; rewrite G1; reflexivity). cbn [has andb]. rewrite G1. cbn [has negb].
    set (g2 := set_dim g1 a (with_dyn (dyn_of g1 b))).
    assert (Gd2 : forall i, i <> a -> h_dim g2 i = h_dim h i). { intros i Hi. unfold g2, set_dim. cbn [h_dim]. pose proof Hi as Hi'. apply Nat.eqb_neq in Hi. rewrite Hi. apply Gd. exact Hi'. }
    assert (Ge2 : h_dim g2 a = with_dyn (dyn_of h b) (with_extra (set_same (Some b)) (h_dim h a))).
    { unfold g2, set_dim. cbn [h_dim]. rewrite Nat.eqb_refl, Ge. unfold dyn_of. rewrite Gd by congruence. reflexivity. }
    assert (Gn2 : h_n g2 = h_n h /\ h_raw g2 = h_raw h) by (split; [exact (proj1 Gn)|exact (proj2 Gn)]). clearbody g2.
    assert (Yb : dyn_of g2 b = dyn_of h b) by (unfold dyn_of; rewrite Gd2 by congruence; reflexivity).
    assert (Ya : dyn_of g2 a = dyn_of h b) by (unfold dyn_of at 1; rewrite Ge2; reflexivity).
    assert (Rw : raw_of g2 a = raw_of g2 b) by (unfold raw_of; rewrite Ya, Yb; reflexivity).
    match goal with |- context [dbind ?e _] => assert (Z4 : e = DOk g2) end.
    { rewrite Ya, Rw. unfold raw_of. rewrite Yb. destruct (dyn_of h b) as [t|]; [|reflexivity]. cbn [has andb]. destruct (has (h_raw g2 t)); reflexivity. }
    rewrite Z4. cbn [dbind].
    assert (Sza : size_of g2 a = None) by (unfold size_of; rewrite Ge2; exact Za). assert (Szb : size_of g2 b = size_of h b) by (unfold size_of; rewrite Gd2 by congruence; reflexivity).
    assert (Kga : is_dim_known g2 a = has (dyn_of h b)). { unfold is_dim_known. rewrite Ya, Sza. unfold kind_of. rewrite Ge2. unfold get_extra. cbn [with_dyn with_extra d_extra]. fold (get_extra (h_dim h a)). rewrite Ga. cbn. apply orb_false_r. }
    assert (Ex : d_extra (h_dim g2 a) = Some (set_same (Some b) extra0)). { rewrite Ge2. cbn [with_dyn with_extra d_extra]. rewrite Ga. reflexivity. }
    rewrite Kga. destruct (has (dyn_of h b)) eqn:Eh; cbn [andb].
    - assert (Kb : is_dim_known g2 b = true) by (unfold is_dim_known; rewrite Yb, Eh, orb_true_r; reflexivity). rewrite Kb, Sza, Szb.
      destruct (size_of h b) as [s|] eqn:Zb.
      + exfalso. destruct Zd as [Zd|Zd]; [discriminate|rewrite Zd in Eh; discriminate].
      + cbn [opt_eqb dassert dbind]. exists g2. split; [reflexivity|]. split; [apply Gn2|]. split; [apply Gn2|]. split; [exact Gd2|]. split; [exact Sza|]. split; [exact Ya|exact Ex].
    - destruct (is_dim_known g2 b) eqn:Kb.
      + eexists. split; [reflexivity|]. split; [apply Gn2|]. split; [apply Gn2|]. split; [|split; [|split]].
        * intros i Hi. unfold set_dim. cbn [h_dim]. pose proof Hi as Hi'. apply Nat.eqb_neq in Hi'. rewrite Hi'. apply Gd2. exact Hi.
        * unfold size_of at 1, set_dim. cbn [h_dim]. rewrite Nat.eqb_refl. exact Szb.
        * unfold dyn_of at 1, set_dim. cbn [h_dim]. rewrite Nat.eqb_refl. exact Ya.
        * unfold set_dim. cbn [h_dim]. rewrite Nat.eqb_refl. exact Ex.
      + exists g2. split; [reflexivity|]. split; [apply Gn2|]. split; [apply Gn2|]. split; [exact Gd2|]. split; [|split; [exact Ya|exact Ex]].
        rewrite Sza. unfold is_dim_known in Kb. apply orb_false_iff in Kb. destruct Kb as [_ Kb]. rewrite Szb in Kb. destruct (size_of h b); [discriminate|reflexivity]. }
  destruct Lk as (h2 & L2 & N2 & R2 & I2 & Z2 & Y2 & X2).
  assert (Eo : forall i, i <> a -> get_extra (h_dim h2 i) = get_extra (h_dim h i)) by (intros i Hi; rewrite I2 by exact Hi; reflexivity).
  assert (S2a : same_as h2 a = Some b) by (unfold same_as, get_extra; rewrite X2; reflexivity).
  assert (S2b : same_as h2 b = None) by (unfold same_as; rewrite Eo by congruence; exact Sb).
  (* [finish] changes only the dim [a] *)
  assert (Fi : exists h3, finish h2 a a b [(dim_hash h a, a)] [(dim_hash h b, b)] = h3 /\ h_raw h3 = h_raw h /\ (forall i, i <> a -> h_dim h3 i = h_dim h i) /\ same_as h3 a = Some b /\ dyn_of h3 a = dyn_of h b /\ size_of h3 a = size_of h b).
  { eexists. split; [reflexivity|]. unfold finish.
    assert (V : vocab h2 a = vocab h2 b).
    { unfold vocab. rewrite N2. destruct (h_n h) as [|n]; [lia|]. cbn [base_]. rewrite S2a, S2b. destruct n; cbn [base_]; rewrite S2b; reflexivity. }
    replace (if has (vocab h2 a) && negb (has (vocab h2 b)) then _ else _) with h2 by (rewrite V; destruct (has (vocab h2 b)); reflexivity).
    set (v := auto h2 b). set (g1 := set_dim h2 a (with_extra (set_auto v))). set (w := auto g1 b). set (g2 := set_dim g1 a (with_extra (set_auto w))).
    assert (G : h_raw g2 = h_raw h /\ (forall i, i <> a -> h_dim g2 i = h_dim h i) /\ same_as g2 a = Some b /\ dyn_of g2 a = dyn_of h b /\ size_of g2 a = size_of h b /\ op_of g2 a = None).
    { split; [exact R2|]. split; [intros i Hi; unfold g2, g1, set_dim; cbn [h_dim]; pose proof Hi as Hi'; apply Nat.eqb_neq in Hi'; rewrite Hi'; apply I2; exact Hi|].
      unfold same_as, dyn_of at 1, size_of at 1, op_of. unfold g2, g1, set_dim. cbn [h_dim]. rewrite Nat.eqb_refl. revert Y2 Z2 X2. clear. unfold dyn_of at 1, size_of at 1. destruct (h_dim h2 a) as [dn dc ds dd de]. cbn [d_extra d_dyn d_size]. intros Y2 Z2 ->. cbn.
      split; [reflexivity|]. split; [exact Y2|]. split; [exact Z2|reflexivity]. }
    destruct G as (G1 & G2 & G3 & G4 & G5 & G6). clearbody g2. clear g1 v w. rewrite G6.
    replace (op_of g2 b) with (@None (list nat)) by (unfold op_of; rewrite G2 by congruence; symmetry; exact Ob). cbn [has andb]. destruct (subset _ _ _); auto 10. }
  destruct Fi as (h3 & F3 & R3 & I3 & S3 & Y3 & Z3).
  exists h3. split.
  - unfold declare_same_as. cbn [declare]. rewrite Pa, Pb. cbn [negb andb dassert dbind]. rewrite Q. unfold get_same_base at 1. rewrite (Bb b Sb). cbn [dbind]. rewrite Q, Sa. cbn [opt_eqb orb].
    unfold get_same_base at 1. rewrite (Bb a Sa). cbn [dbind]. rewrite Q, Sw. cbn [dbind]. rewrite (Sets b), (Sets a) by assumption. cbn [dbind]. rewrite Pre. cbn [dbind]. rewrite L2. cbn [dbind]. rewrite Nat.eqb_refl, F3. reflexivity.
  - assert (Cb : chain h3 b b) by (constructor; unfold same_as; rewrite I3 by congruence; exact Sb).
    split; [econstructor 2; [exact S3|exact Cb]|]. split; [exact Cb|]. split; [exact Z3|]. split; [exact Y3|]. split; [intros t; rewrite R3; reflexivity|exact I3].
Qed.

(** ** Several declarations *)
Lemma same_refl : forall h i, wf h -> i < h_n h -> same h i i.
Proof. intros h i W Hi. destruct (W i Hi) as [(b & C) _]. exists b. auto. Qed.
Lemma same_sym : forall h i j, same h i j -> same h j i.
Proof. intros h i j (b & A & B). exists b. auto. Qed.
Lemma same_trans : forall h i j k, same h i j -> same h j k -> same h i k.
Proof. intros h i j k (b & A & B) (c & C & D). rewrite (chain_fun _ _ _ B _ C) in A. exists c. auto. Qed.
Lemma clos_incl : forall (R S : nat -> nat -> Prop), (forall x y, R x y -> clos_refl_sym_trans nat S x y) -> forall x y, clos_refl_sym_trans nat R x y -> clos_refl_sym_trans nat S x y.
Proof. intros R S H x y C. induction C; [apply H; assumption|apply rst_refl|apply rst_sym; assumption|eapply rst_trans; eassumption]. Qed.
Definition same_or (h : heap) (l : list (nat * nat)) (x y : nat) : Prop := (x < h_n h /\ y < h_n h /\ same h x y) \/ In (x, y) l.
Lemma declare_same : forall h a b h', wf h -> a < h_n h -> b < h_n h -> declare_same_as h a b = DOk h' ->
  wf h' /\ h_n h' = h_n h /\ (forall i, kind_of h' i = kind_of h i) /\
  forall i j, i < h_n h -> j < h_n h -> (same h' i j <-> same h i j \/ (same h i a /\ same h b j) \/ (same h i b /\ same h a j)).
Proof.
  intros h a b h' W Ha Hb H. destruct (W a Ha) as [(ab & Ca) _]. destruct (W b Hb) as [(ob & Cb) _].
  pose proof (declare_merged _ _ _ _ _ _ _ _ W Ha Hb Ca Cb H) as M. pose proof (merged_same _ _ _ _ _ _ W Ca Cb M) as S. destruct M as (W' & N & K & _). auto.
Qed.
Lemma declare_all_same : forall l h h', wf h -> user_dims h -> (forall a b, In (a, b) l -> a < h_n h /\ b < h_n h) -> declare_all h l = DOk h' ->
  wf h' /\ user_dims h' /\ h_n h' = h_n h /\ forall i j, i < h_n h -> j < h_n h -> (same h' i j <-> clos_refl_sym_trans nat (same_or h l) i j).
Proof.
  induction l as [|[a b] l IH]; intros h h' W U L H; cbn [declare_all] in H.
  - injection H as <-. split; [exact W|]. split; [exact U|]. split; [reflexivity|]. intros i j Hi Hj. split.
    + intros S. apply rst_step. left. auto.
    + intros C. cut (i = j \/ (i < h_n h /\ j < h_n h /\ same h i j)). { intros [->|(_ & _ & S)]; [apply same_refl; assumption|exact S]. } clear Hi Hj.
      induction C as [x y [Q|[]]|x|x y C IHC|x y z C1 I1 C2 I2]; [right; exact Q|left; reflexivity| |].
      * destruct IHC as [->|(A & B & S)]; [left; reflexivity|right]. split; [exact B|]. split; [exact A|]. apply same_sym. exact S.
      * destruct I1 as [->|(A & B & S)]; [exact I2|]. destruct I2 as [<-|(A2 & B2 & S2)]; right; [auto|]. split; [exact A|]. split; [exact B2|]. eapply same_trans; eassumption.
  - destruct (declare_same_as h a b) as [h1|] eqn:E; [|discriminate]. destruct (L a b (or_introl eq_refl)) as [Ha Hb].
    destruct (declare_same h a b h1 W Ha Hb E) as (W1 & N1 & K1 & S1).
    assert (U1 : user_dims h1). { intros i. split; [|rewrite K1; apply U]. refine (auto_declare _ _ _ _ _ _ _ E i). intros k. apply U. }
    destruct (IH h1 h' W1 U1) as (W' & U' & N' & S'); [intros x y Hxy; rewrite N1; apply L; right; exact Hxy|exact H|].
    split; [exact W'|]. split; [exact U'|]. split; [congruence|]. intros i j Hi Hj. rewrite S' by (rewrite N1; assumption).
    assert (P : forall x y, x < h_n h -> y < h_n h -> same h x y -> clos_refl_sym_trans nat (same_or h ((a, b) :: l)) x y) by (intros x y Hx Hy S; apply rst_step; left; auto).
    assert (AB : clos_refl_sym_trans nat (same_or h ((a, b) :: l)) a b) by (apply rst_step; right; left; reflexivity).
    split; apply clos_incl; intros x y [(Hx & Hy & S)|Q].
    + rewrite N1 in Hx, Hy. apply S1 in S; [|assumption|assumption]. destruct S as [S|[[A B]|[A B]]].
      * apply P; assumption.
      * eapply rst_trans; [apply P; [| |exact A]; assumption|]. eapply rst_trans; [exact AB|apply P; assumption].
      * eapply rst_trans; [apply P; [| |exact A]; assumption|]. eapply rst_trans; [apply rst_sym; exact AB|apply P; assumption].
    + apply rst_step. right. right. exact Q.
    + apply rst_step. left. rewrite N1. split; [exact Hx|]. split; [exact Hy|]. apply S1; [assumption|assumption|]. left. exact S.
    + destruct Q as [Q|Q]; [|apply rst_step; right; exact Q]. injection Q as <- <-. apply rst_step. left. rewrite N1. split; [exact Ha|]. split; [exact Hb|].
      apply S1; [assumption|assumption|]. right. left. split; apply same_refl; assumption.
Qed.
Lemma fresh_wf : forall h, fresh h -> wf h.
Proof. intros h F i Hi. split; [exists i; constructor; apply F|]. intros j E. rewrite F in E. discriminate. Qed.
Lemma declare_all_closure : forall l h h', fresh h -> user_dims h -> (forall a b, In (a, b) l -> a < h_n h /\ b < h_n h) -> declare_all h l = DOk h' ->
  forall i j, i < h_n h -> j < h_n h -> (dim_eq h' i j = true <-> declared l i j).
Proof.
  intros l h h' F U L H i j Hi Hj. destruct (declare_all_same l h h' (fresh_wf h F) U L H) as (W & U' & N & S). rewrite (dim_eq_user h' i j W U') by (rewrite N; assumption). rewrite S by assumption.
  split; apply clos_incl; intros x y Q.
  - destruct Q as [(_ & _ & (b & A & B))|Q]; [|apply rst_step; exact Q]. pose proof (chain_fun _ _ _ A x (chain_end _ _ (F x))) as E1. pose proof (chain_fun _ _ _ B y (chain_end _ _ (F y))) as E2. rewrite <- E1, <- E2. apply rst_refl.
  - apply rst_step. right. exact Q.
Qed.
