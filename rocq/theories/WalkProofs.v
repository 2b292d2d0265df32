From Verif Require Import Base ListLemmas WalkModel WalkSpec.
Local Open Scope nat_scope. Local Open Scope list_scope.

Lemma is_seen_iff x l : is_seen x l = true <-> In x l.
Proof. unfold is_seen. rewrite existsb_exists. split; [intros (y & H & E); apply Nat.eqb_eq in E; now subst y|intros H; exists x; split; [exact H|apply Nat.eqb_refl]]. Qed.
Lemma is_seen_not x l : is_seen x l = false <-> ~ In x l.
Proof. rewrite <- is_seen_iff. destruct (is_seen x l); split; congruence. Qed.

Section Walk.
  Context (consumers : nat -> list nat).
  Lemma walk_acc fuel f e : forall seen q outs, walk fuel consumers f e seen q outs = match walk fuel consumers f e seen q [] with Ok l => Ok (outs ++ l) | Err r => Err r end.
  Proof.
    induction fuel as [|fuel IH]; intros seen [|x q] outs; cbn; rewrite ?app_nil_r; try reflexivity. destruct (is_seen x seen); [apply IH|]. destruct (test f true x), (test e false x); cbn [app]; rewrite ?app_nil_r; try reflexivity.
    - rewrite IH, (IH _ _ [x]). destruct (walk _ _ _ _ _ _ []); [now rewrite <- app_assoc|reflexivity].
    - apply IH.
  Qed.
  Lemma walk_cut fuel f e : forall seen q order, walk fuel consumers None None seen q [] = Ok order -> walk fuel consumers f e seen q [] = Ok (filter (test f true) (upto (test e false) order)).
  Proof.
    induction fuel as [|fuel IH]; intros seen [|x q] order; cbn; try (intros H; injection H as <-; reflexivity); try discriminate. destruct (is_seen x seen); [apply IH|]. rewrite walk_acc. destruct (walk fuel consumers None None (x :: seen) (q ++ consumers x) []) as [l|] eqn:E; [|discriminate]. intros H. injection H as <-. cbn [app upto].
    destruct (test e false x); cbn [filter]; [destruct (test f true x); reflexivity|]. rewrite walk_acc, (IH _ _ _ E). destruct (test f true x); reflexivity.
  Qed.

  Definition unseen (seen l : list nat) : nat := list_sum (map (fun x => if is_seen x seen then 0 else length (consumers x)) l).
  Lemma unseen_other seen l x : ~ In x l -> unseen (x :: seen) l = unseen seen l.
  Proof.
    intros H. unfold unseen. f_equal. apply map_ext_in. intros y Hy. replace (is_seen y (x :: seen)) with (is_seen y seen); [reflexivity|]. cbn. destruct (y =? x) eqn:E; [apply Nat.eqb_eq in E; subst y; contradiction|reflexivity].
  Qed.
  Lemma unseen_cons seen l x : NoDup l -> In x l -> ~ In x seen -> unseen seen l = length (consumers x) + unseen (x :: seen) l.
  Proof.
    intros Hn Hi Hs. induction l as [|y l IH]; [contradiction|]. inversion Hn as [|? ? Hy Hn']; subst. destruct Hi as [->|Hi].
    - change (unseen seen (x :: l)) with ((if is_seen x seen then 0 else length (consumers x)) + unseen seen l). change (unseen (x :: seen) (x :: l)) with ((if is_seen x (x :: seen) then 0 else length (consumers x)) + unseen (x :: seen) l).
      rewrite (proj2 (is_seen_not x seen) Hs), (proj2 (is_seen_iff x (x :: seen)) (or_introl eq_refl)), unseen_other by exact Hy. lia.
    - specialize (IH Hn' Hi). change (unseen seen (y :: l)) with ((if is_seen y seen then 0 else length (consumers y)) + unseen seen l). change (unseen (x :: seen) (y :: l)) with ((if is_seen y (x :: seen) then 0 else length (consumers y)) + unseen (x :: seen) l).
      assert (E : is_seen y (x :: seen) = is_seen y seen) by (cbn; destruct (y =? x) eqn:E; [apply Nat.eqb_eq in E; subst y; contradiction|reflexivity]). rewrite E. lia.
  Qed.
  Lemma walk_total n f e : (forall x y, In y (consumers x) -> y < n) -> forall fuel seen q outs, (forall x, In x q -> x < n) -> length q + unseen seen (seq 0 n) <= fuel -> exists l, walk fuel consumers f e seen q outs = Ok l.
  Proof.
    intros Hc. induction fuel as [|fuel IH]; intros seen [|x q] outs Hq Hf; cbn; try (eexists; reflexivity); [cbn in Hf; lia|]. cbn [length] in Hf. destruct (is_seen x seen) eqn:Es; [apply IH; [intros y Hy; apply Hq; now right|lia]|]. destruct (test e false x); [eexists; reflexivity|]. apply is_seen_not in Es.
    apply IH; [intros y Hy; apply in_app_iff in Hy; destruct Hy as [Hy|Hy]; [apply Hq; now right|eapply Hc, Hy]|]. rewrite app_length. rewrite (unseen_cons seen (seq 0 n) x (seq_NoDup n 0)) in Hf; [lia| |exact Es]. apply in_seq. specialize (Hq x (or_introl eq_refl)). lia.
  Qed.
  Lemma call_total n seeds f e : graph_ok n consumers seeds -> exists l, walk_tensor_consumers n consumers seeds f e = Ok l.
  Proof. intros [H1 H2]. apply (walk_total n f e H2); [exact H1|]. apply Nat.add_le_mono_l. unfold unseen. cbn. lia. Qed.

  Context (seeds : list nat).
  Notation within := (within consumers seeds).
  Lemma within_S k x : within k x -> within (S k) x.
  Proof. now left. Qed.
  Lemma within_le k k' x : k <= k' -> within k x -> within k' x.
  Proof. induction 1; auto using within_S. Qed.
  (** [q1]: the rest of the level [d]; [q2]: the consumers so far, which are of the next level *)
  Record inv (seen q1 q2 : list nat) (d : nat) : Prop := {
    i_seen : forall x, In x seen -> within d x;
    i_q1 : forall x, In x q1 -> within d x;
    i_q2 : forall x, In x q2 -> within (S d) x;
    i_all : forall x, within d x -> In x seen \/ In x q1;
    i_cons : forall y x, In y seen -> In x (consumers y) -> In x seen \/ In x q1 \/ In x q2;
    i_before : forall k x, k < d -> within k x -> In x seen }.
  Lemma inv_next seen q2 d : inv seen [] q2 d -> inv seen q2 [] (S d).
  Proof.
    intros [I1 I2 I3 I4 I5 I6]. constructor.
    - intros x H. left. auto.
    - exact I3.
    - contradiction.
    - intros x [H|(y & H & Hc)]; [destruct (I4 x H) as [?|[]]; auto|]. destruct (I4 y H) as [Hy|[]]. destruct (I5 y x Hy Hc) as [?|[[]|?]]; auto.
    - intros y x Hy Hc. destruct (I5 y x Hy Hc) as [?|[[]|?]]; auto.
    - intros k x Hk H. assert (Hd : within d x) by (apply (within_le k); [lia|exact H]). destruct (I4 x Hd) as [?|[]]; auto.
  Qed.
  Lemma inv_head seen q1 q2 d x q : inv seen q1 q2 d -> q1 ++ q2 = x :: q -> exists q1' q2' d', inv seen (x :: q1') q2' d' /\ q = q1' ++ q2'.
  Proof.
    intros I E. destruct q1 as [|a q1]; cbn in E.
    - subst q2. exists q, [], (S d). split; [now apply inv_next|now rewrite app_nil_r].
    - injection E as -> <-. eauto.
  Qed.
  Lemma inv_skip seen q1 q2 d x : inv seen (x :: q1) q2 d -> In x seen -> inv seen q1 q2 d.
  Proof.
    intros [I1 I2 I3 I4 I5 I6] Hx. constructor; auto.
    - intros y H. apply I2. now right.
    - intros y H. destruct (I4 y H) as [?|[<-|?]]; auto.
    - intros y z Hy Hz. destruct (I5 y z Hy Hz) as [?|[[<-|?]|?]]; auto.
  Qed.
  Lemma inv_visit seen q1 q2 d x : inv seen (x :: q1) q2 d -> inv (x :: seen) q1 (q2 ++ consumers x) d.
  Proof.
    intros [I1 I2 I3 I4 I5 I6]. assert (Hx : within d x) by (apply I2; now left). constructor.
    - intros y [<-|H]; auto.
    - intros y H. apply I2. now right.
    - intros y H. apply in_app_iff in H. destruct H as [H|H]; [auto|]. right. eauto.
    - intros y H. destruct (I4 y H) as [?|[<-|?]]; cbn; auto.
    - intros y z [<-|Hy] Hz; [right; right; apply in_app_iff; now right|]. destruct (I5 y z Hy Hz) as [?|[[<-|?]|?]]; cbn; rewrite ?in_app_iff; auto.
    - intros k y Hk H. right. eauto.
  Qed.
  Lemma order_spec fuel : forall seen q1 q2 d order, inv seen q1 q2 d -> walk fuel consumers None None seen (q1 ++ q2) [] = Ok order ->
    NoDup order /\ ForallOrdPairs (not_farther consumers seeds) order /\ forall y, In y order <-> reachable consumers seeds y /\ ~ In y seen.
  Proof.
    assert (Hend : forall seen d, inv seen [] [] d -> forall y, reachable consumers seeds y -> In y seen).
    { intros seen d [I1 I2 I3 I4 I5 I6] y (k & H). revert y H. induction k as [|k IH]; intros y H.
      - destruct (I4 y) as [?|[]]; [|assumption]. apply (within_le 0); [lia|exact H].
      - destruct H as [H|(z & H & Hc)]; [auto|]. destruct (I5 z y (IH z H) Hc) as [?|[[]|[]]]. assumption. }
    induction fuel as [|fuel IH]; intros seen q1 q2 d order I H; (destruct (q1 ++ q2) as [|x q] eqn:Eq; [apply app_eq_nil in Eq; destruct Eq as [-> ->]; cbn in H; injection H as <-; split; [constructor|]; split; [constructor|]; intros y; split; [intros []|intros [Hr Hn]; destruct Hn; eapply Hend; eauto]|]).
    - discriminate.
    - destruct (inv_head _ _ _ _ _ _ I Eq) as (r1 & r2 & d' & I' & ->). cbn in H. destruct (is_seen x seen) eqn:Es.
      + apply is_seen_iff in Es. exact (IH _ _ _ _ _ (inv_skip _ _ _ _ _ I' Es) H).
      + apply is_seen_not in Es. rewrite walk_acc in H. destruct (walk fuel consumers None None (x :: seen) ((r1 ++ r2) ++ consumers x) []) as [l|] eqn:El; [|discriminate]. cbn in H. injection H as <-. rewrite <- app_assoc in El. destruct (IH _ _ _ _ _ (inv_visit _ _ _ _ _ I') El) as (N & O & A).
        destruct I' as [J1 J2 J3 J4 J5 J6]. assert (Hx : within d' x) by (apply J2; now left). split; [|split].
        * constructor; [|exact N]. intros Hi. apply A in Hi. destruct Hi as [_ Hi]. apply Hi. now left.
        * constructor; [|exact O]. apply Forall_forall. intros y Hy k Hk. apply A in Hy. destruct Hy as [_ Hy]. destruct (le_lt_dec d' k) as [L|L]; [eapply within_le; eauto|]. exfalso. apply Hy. right. eauto.
        * intros y. cbn. rewrite A. cbn. split; [intros [<-|[H1 H2]]; [split; [exists d'; exact Hx|exact Es]|tauto]|]. intros [H1 H2]. destruct (Nat.eq_dec x y) as [->|N2]; [now left|right]. split; [exact H1|]. intros [?|?]; contradiction.
  Qed.
  Lemma inv_start : inv [] seeds [] 0.
  Proof. constructor; cbn; try contradiction; auto. intros k x Hk. lia. Qed.
  Lemma call_order n order : walk_tensor_consumers n consumers seeds None None = Ok order ->
    NoDup order /\ ForallOrdPairs (not_farther consumers seeds) order /\ forall y, In y order <-> reachable consumers seeds y.
  Proof.
    intros H. unfold walk_tensor_consumers in H. rewrite <- (app_nil_r seeds) in H at 2. destruct (order_spec _ _ _ _ _ _ inv_start H) as (A & B & C). split; [exact A|]. split; [exact B|]. intros y. rewrite C. cbn. tauto.
  Qed.
End Walk.
