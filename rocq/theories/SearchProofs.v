From Coq Require Import QArith Qabs Lqa Permutation Sorted.
From Verif Require Import Base ListLemmas LrModel LrProofs SearchModel SearchSpec.
Local Open Scope nat_scope. Local Open Scope list_scope.
Local Open Scope Z_scope.

Lemma binary_search_spec fuel cmp low high : high - low < Z.of_nat fuel -> (0 < fuel)%nat ->
  exists r probes, binary_search fuel cmp low high = Ok (r, probes) /\
    (low <= high -> low <= r <= high) /\ (high <= low -> r = low) /\
    (forall p, In p probes -> low <= p < high) /\
    ((low <= r < high /\ cmp r = 0) \/ ((r < high -> 0 < cmp r) /\ (low < r -> cmp (r - 1) < 0))) /\
    (if low <? high then 2 ^ Z.of_nat (length probes) <= 2 * (high - low) else probes = []).
Proof.
  revert low high. induction fuel as [|fuel IH]; intros low high Hf Hf0; [lia|].
  cbn [binary_search]. destruct (Z.ltb_spec low high) as [Hlt|Hge].
  2:{ exists low, []. split; [reflexivity|]. split; [lia|]. split; [reflexivity|]. split; [intros p []|]. split; [right; split; lia|]. reflexivity. }
  set (mid := (low + high) / 2). assert (Hm : low <= mid < high) by (unfold mid; split; [apply Z.div_le_lower_bound; lia|apply Z.div_lt_upper_bound; lia]).
  assert (Hhalf : 2 * (mid - low) <= high - low /\ 2 * (high - (mid + 1)) <= high - low).
  { unfold mid. pose proof (Z.div_mod (low + high) 2). pose proof (Z.mod_pos_bound (low + high) 2). lia. }
  clearbody mid. rewrite Z.gtb_ltb. destruct (Z.ltb_spec (cmp mid) 0) as [Hneg|Hnn].
  - destruct (IH (mid + 1) high ltac:(lia) ltac:(lia)) as (r&ps&E&A&B&C&D&F). rewrite E. cbn [bind fst snd]. exists r, (mid :: ps). split; [reflexivity|]. split; [lia|]. split; [lia|].
    split; [intros p [<-|Hp]; [lia|specialize (C _ Hp); lia]|]. split.
    + destruct D as [[D1 D2]|[D1 D2]]; [left; split; [lia|exact D2]|right]. split; [exact D1|]. intros Hr. destruct (Z.eq_dec r (mid + 1)) as [->|Hne]; [replace (mid + 1 - 1) with mid by lia; exact Hneg|apply D2; lia].
    + cbn [length]. rewrite Nat2Z.inj_succ, Z.pow_succ_r by lia. revert F. destruct (Z.ltb_spec (mid + 1) high); intros F; [lia|]. subst ps. change (Z.of_nat (length [])) with 0. rewrite Z.pow_0_r. lia.
  - destruct (Z.ltb_spec 0 (cmp mid)) as [Hpos|Hnp].
    + destruct (IH low mid ltac:(lia) ltac:(lia)) as (r&ps&E&A&B&C&D&F). rewrite E. cbn [bind fst snd]. exists r, (mid :: ps). split; [reflexivity|]. split; [lia|]. split; [lia|].
      split; [intros p [<-|Hp]; [lia|specialize (C _ Hp); lia]|]. split.
      * destruct D as [[D1 D2]|[D1 D2]]; [left; split; [lia|exact D2]|right]. split; [|exact D2]. intros Hr. destruct (Z.eq_dec r mid) as [->|Hne]; [exact Hpos|apply D1; lia].
      * cbn [length]. rewrite Nat2Z.inj_succ, Z.pow_succ_r by lia. revert F. destruct (Z.ltb_spec low mid); intros F; [lia|]. subst ps. change (Z.of_nat (length [])) with 0. rewrite Z.pow_0_r. lia.
    + exists mid, [mid]. split; [reflexivity|]. split; [lia|]. split; [lia|]. split; [intros p [<-|[]]; lia|]. split; [left; split; [lia|lia]|]. change (2 ^ Z.of_nat (length [mid])) with 2. lia.
Qed.

(** * Sorting, bisection *)
Lemma Qlt_bool_true_false x y : Qlt_bool x y = false <-> (y <= x)%Q.
Proof. split; [apply Qlt_bool_false|]. intros H. apply not_true_iff_false. rewrite Qlt_bool_iff. lra. Qed.

Lemma insert_item_perm {V} (kv : Q * V) l : Permutation (insert_item kv l) (kv :: l).
Proof. induction l as [|y l IH]; cbn [insert_item]; [reflexivity|]. destruct (Qlt_bool (fst y) (fst kv)); [|reflexivity]. rewrite IH. apply perm_swap. Qed.
Lemma sort_items_perm {V} (l : list (Q * V)) : Permutation (sort_items l) l.
Proof. induction l as [|x l IH]; cbn [sort_items]; [reflexivity|]. rewrite insert_item_perm. now apply perm_skip. Qed.
Definition klt {V} (a b : Q * V) : Prop := (fst a < fst b)%Q.
Lemma insert_item_sorted {V} (kv : Q * V) l : (forall y, In y l -> ~ (fst y == fst kv)%Q) -> StronglySorted klt l -> StronglySorted klt (insert_item kv l).
Proof.
  intros Hn Hs. induction Hs as [|y l Hs IH Hf]; cbn [insert_item]; [repeat constructor|]. destruct (Qlt_bool (fst y) (fst kv)) eqn:E.
  - apply Qlt_bool_iff in E. constructor; [apply IH; intros z Hz; apply Hn; now right|]. eapply Permutation_Forall; [symmetry; apply insert_item_perm|]. constructor; [exact E|exact Hf].
  - apply Qlt_bool_false in E. specialize (Hn y (or_introl eq_refl)) as Hny. assert (Hlt : (fst kv < fst y)%Q) by (destruct (Qlt_le_dec (fst kv) (fst y)); [assumption|]; exfalso; apply Hny; lra).
    constructor; [now constructor|]. constructor; [exact Hlt|]. eapply Forall_impl; [|exact Hf]. intros z Hz. unfold klt in *. lra.
Qed.
Lemma sort_items_sorted {V} (l : list (Q * V)) : distinct_keys l -> StronglySorted klt (sort_items l).
Proof.
  induction l as [|[k v] l IH]; cbn [sort_items distinct_keys]; [constructor|]. intros [H1 H2]. apply insert_item_sorted; [|now apply IH]. intros [k' v'] Hin. cbn [fst]. apply (H1 k' v'). eapply Permutation_in; [apply sort_items_perm|exact Hin].
Qed.
Lemma sorted_nth {V} (l : list (Q * V)) i j a b : StronglySorted klt l -> (i < j)%nat -> nth_error l i = Some a -> nth_error l j = Some b -> (fst a < fst b)%Q.
Proof.
  intros Hs. revert i j. induction Hs as [|y l Hs IH Hf]; intros i j Hij Ha Hb; [destruct i; discriminate|]. rewrite Forall_forall in Hf. destruct j as [|j]; [lia|]. cbn in Hb. destruct i as [|i].
  - cbn in Ha. injection Ha as <-. apply Hf. eapply nth_error_In; eauto.
  - cbn in Ha. apply (IH i j); [lia|exact Ha|exact Hb].
Qed.

Definition weakly_ascending (keys : list Q) : Prop := forall i j, (i <= j < length keys)%nat -> (nth i keys 0 <= nth j keys 0)%Q.
Lemma bisect_loop_spec fuel keys x lo hi : weakly_ascending keys -> (hi - lo < fuel)%nat -> (lo <= hi <= length keys)%nat ->
  (forall j, (j < lo)%nat -> (nth j keys 0 < x)%Q) -> (forall j, (hi <= j < length keys)%nat -> (x <= nth j keys 0)%Q) ->
  let i := bisect_loop fuel keys x lo hi in
  (i <= length keys)%nat /\ (forall j, (j < i)%nat -> (nth j keys 0 < x)%Q) /\ (forall j, (i <= j < length keys)%nat -> (x <= nth j keys 0)%Q).
Proof.
  intros Hasc. revert lo hi. induction fuel as [|fuel IH]; intros lo hi Hf Hb Hlo Hhi; [lia|]. cbn [bisect_loop]. destruct (Nat.ltb_spec lo hi) as [Hlt|Hge].
  - set (mid := ((lo + hi) / 2)%nat). assert (Hm : (lo <= mid < hi)%nat) by (unfold mid; split; [apply Nat.div_le_lower_bound; lia|apply Nat.div_lt_upper_bound; lia]). clearbody mid.
    destruct (Qlt_bool (nth mid keys 0%Q) x) eqn:E.
    + apply Qlt_bool_iff in E. apply IH; [lia|lia| |exact Hhi]. intros j Hj. eapply Qle_lt_trans; [apply (Hasc j mid); lia|exact E].
    + apply Qlt_bool_false in E. apply IH; [lia|lia|exact Hlo|]. intros j Hj. eapply Qle_trans; [exact E|apply (Hasc mid j); lia].
  - split; [lia|]. split; [exact Hlo|]. intros j Hj. apply Hhi. lia.
Qed.
Lemma bisect_left_spec keys x : weakly_ascending keys -> let i := bisect_left keys x in
  (i <= length keys)%nat /\ (forall j, (j < i)%nat -> (nth j keys 0 < x)%Q) /\ (forall j, (i <= j < length keys)%nat -> (x <= nth j keys 0)%Q).
Proof. intros H. apply bisect_loop_spec; [exact H|lia|lia|intros; lia|intros; lia]. Qed.

Lemma nth_keys {V} (l : list (Q * V)) i a : nth_error l i = Some a -> nth i (map fst l) 0%Q = fst a.
Proof. intros H. apply nth_error_nth with (d := 0%Q). rewrite nth_error_map, H. reflexivity. Qed.
Lemma sorted_weakly {V} (l : list (Q * V)) : StronglySorted klt l -> weakly_ascending (map fst l).
Proof.
  intros Hs i j Hij. rewrite map_length in Hij. destruct (Nat.eq_dec i j) as [->|Hne]; [lra|]. destruct (nth_error l i) as [a|] eqn:Ea; [|apply nth_error_None in Ea; lia]. destruct (nth_error l j) as [b|] eqn:Eb; [|apply nth_error_None in Eb; lia].
  rewrite (nth_keys _ _ _ Ea), (nth_keys _ _ _ Eb). apply Qlt_le_weak. eapply (sorted_nth l i j); eauto. lia.
Qed.

Lemma step_call_spec {V} (points : list (Q * V)) x : distinct_keys points -> points <> [] ->
  exists k v, step_call points x = Ok v /\ In (k, v) points /\ nearest points x k.
Proof.
  intros Hd Hne. unfold step_call. pose proof (sort_items_perm points) as Hp. pose proof (sort_items_sorted points Hd) as Hs. set (l := sort_items points) in *.
  assert (Hlen : (0 < length l)%nat) by (rewrite (Permutation_length Hp); destruct points; [congruence|cbn; lia]).
  destruct (bisect_left_spec (map fst l) x (sorted_weakly l Hs)) as (Hb&Hlo&Hhi). set (i := bisect_left (map fst l) x) in *. clearbody i. rewrite map_length in *.
  assert (Ha : assert_ match map fst l with [] => false | _ => true end = Ok tt) by (destruct l; [cbn in Hlen; lia|reflexivity]). rewrite Ha. cbn [bind].
  match goal with |- context [nth_error l ?t] => set (i' := t) end.
  assert (Hi' : (i' < length l)%nat /\ forall j, (j < length l)%nat -> j <> i' ->
      ((Qabs (x - nth i' (map fst l) 0) < Qabs (x - nth j (map fst l) 0))%Q \/ ((Qabs (x - nth i' (map fst l) 0) == Qabs (x - nth j (map fst l) 0))%Q /\ (i' < j)%nat))).
  { assert (Hstrict : forall a b, (a < b < length l)%nat -> (nth a (map fst l) 0 < nth b (map fst l) 0)%Q).
    { intros a b Hab. destruct (nth_error l a) as [ka|] eqn:Ea; [|apply nth_error_None in Ea; lia]. destruct (nth_error l b) as [kb|] eqn:Eb; [|apply nth_error_None in Eb; lia]. rewrite (nth_keys _ _ _ Ea), (nth_keys _ _ _ Eb). eapply (sorted_nth l a b); eauto. lia. }
    subst i'. set (K := fun a => nth a (map fst l) 0%Q) in *. change (forall j, (j < i)%nat -> (K j < x)%Q) in Hlo. change (forall j, (i <= j < length l)%nat -> (x <= K j)%Q) in Hhi. change (forall a b, (a < b < length l)%nat -> (K a < K b)%Q) in Hstrict. change (nth (i - 1) (map fst l) 0%Q) with (K (i - 1)%nat). change (nth i (map fst l) 0%Q) with (K i).
    assert (Habs_lo : forall a, (K a <= x)%Q -> (Qabs (x - K a) == x - K a)%Q) by (intros a H; apply Qabs_pos; lra).
    assert (Habs_hi : forall a, (x <= K a)%Q -> (Qabs (x - K a) == K a - x)%Q) by (intros a H; rewrite Qabs_neg by lra; lra).
    destruct ((length l <=? i)%nat || ((0 <? i)%nat && Qle_bool (x - K (i - 1)%nat) (K i - x))) eqn:E.
    - assert (Hi0 : (0 < i)%nat). { apply orb_true_iff in E. destruct E as [E|E]; [apply Nat.leb_le in E; lia|]. apply andb_true_iff in E. destruct E as [E _]. now apply Nat.ltb_lt in E. }
      split; [lia|]. intros j Hj Hji. change (nth (i - 1) (map fst l) 0%Q) with (K (i - 1)%nat). change (nth j (map fst l) 0%Q) with (K j).
      pose proof (Hlo (i - 1)%nat ltac:(lia)) as H1. pose proof (Habs_lo (i - 1)%nat ltac:(lra)) as A1.
      destruct (Nat.lt_ge_cases j i) as [Hjl|Hjg].
      + left. pose proof (Hlo j Hjl) as H2. pose proof (Habs_lo j ltac:(lra)) as A2. pose proof (Hstrict j (i - 1)%nat ltac:(lia)). lra.
      + assert (Hcond : (x - K (i - 1)%nat <= K i - x)%Q). { apply orb_true_iff in E. destruct E as [E|E]; [apply Nat.leb_le in E; lia|]. apply andb_true_iff in E. destruct E as [_ E]. now apply Qle_bool_iff in E. }
        pose proof (Hhi j ltac:(lia)) as H2. pose proof (Habs_hi j H2) as A2. destruct (Nat.eq_dec j i) as [->|Hne2].
        * destruct (Qlt_le_dec (x - K (i - 1)%nat) (K i - x)); [left; lra|right; split; [lra|lia]].
        * left. pose proof (Hstrict i j ltac:(lia)). lra.
    - apply orb_false_iff in E. destruct E as [E1 E2]. apply Nat.leb_gt in E1. split; [exact E1|]. intros j Hj Hji. change (nth i (map fst l) 0%Q) with (K i). change (nth j (map fst l) 0%Q) with (K j).
      pose proof (Hhi i ltac:(lia)) as H1. pose proof (Habs_hi i H1) as A1. destruct (Nat.lt_ge_cases j i) as [Hjl|Hjg].
      + left. apply andb_false_iff in E2. destruct E2 as [E2|E2]; [apply Nat.ltb_ge in E2; lia|]. assert (Hcond : (K i - x < x - K (i - 1)%nat)%Q). { destruct (Qlt_le_dec (K i - x) (x - K (i - 1)%nat)); [assumption|]. apply Qle_bool_iff in q. congruence. }
        pose proof (Hlo j Hjl) as H2. pose proof (Habs_lo j ltac:(lra)) as A2. destruct (Nat.eq_dec j (i - 1)) as [->|Hne2]; [lra|]. pose proof (Hstrict j (i - 1)%nat ltac:(lia)). lra.
      + left. pose proof (Hhi j ltac:(lia)) as H2. pose proof (Habs_hi j H2) as A2. pose proof (Hstrict i j ltac:(lia)). lra. }
  destruct Hi' as [Hi' Hnear]. destruct (nth_error l i') as [[k v]|] eqn:Ei; [|apply nth_error_None in Ei; lia]. exists k, v. split; [reflexivity|]. split; [eapply Permutation_in; [exact Hp|]; eapply nth_error_In; eauto|].
  intros k' v' Hin Hneq. eapply Permutation_in in Hin; [|symmetry; exact Hp]. apply In_nth_error in Hin. destruct Hin as [j Hj]. assert (Hjl : (j < length l)%nat) by (apply nth_error_Some; congruence).
  specialize (Hnear j Hjl). rewrite (nth_keys _ _ _ Ei), (nth_keys _ _ _ Hj) in Hnear. cbn [fst] in Hnear. destruct Hnear as [H|[H1 H2]]; [intros ->; rewrite Ei in Hj; injection Hj as <- <-; apply Hneq; reflexivity|now left|].
  right. split; [exact H1|]. exact (sorted_nth l i' j _ _ Hs H2 Ei Hj).
Qed.

(** * Linear interpolation *)
Lemma interp_at (p : Q * Q) l x : StronglySorted klt (p :: l) -> (x == fst p)%Q -> (interp_loop p l x == snd p)%Q.
Proof.
  intros Hs Hx. destruct l as [|p' l]; cbn [interp_loop]; [reflexivity|]. inversion Hs as [|? ? _ Hf]; subst. inversion Hf as [|? ? Hlt _]; subst. unfold klt in Hlt.
  assert (E : Qlt_bool x (fst p') = true) by (apply Qlt_bool_iff; lra). rewrite E. apply Qeq_bool_iff in Hx. rewrite Hx. reflexivity.
Qed.
Definition line (a b : Q * Q) (x : Q) : Q := (snd a + (snd b - snd a) / (fst b - fst a) * (x - fst a))%Q.
Lemma interp_seg l1 : forall (p : Q * Q) l a b l2 x, StronglySorted klt (p :: l) -> (fst p <= x)%Q -> p :: l = l1 ++ a :: b :: l2 -> (fst a <= x)%Q -> (x <= fst b)%Q -> (interp_loop p l x == line a b x)%Q.
Proof.
  induction l1 as [|c l1 IH]; intros p l a b l2 x Hs Hp E Ha Hb; cbn [app] in E; injection E as -> ->.
  - inversion Hs as [|? ? Hs' Hf]; subst. inversion Hf as [|? ? Hlt _]; subst. unfold klt in Hlt. cbn [interp_loop]. unfold line. destruct (Qlt_bool x (fst b)) eqn:E.
    + destruct (Qeq_bool x (fst a)) eqn:E2; [apply Qeq_bool_iff in E2; rewrite E2; ring_simplify; field; lra|ring].
    + apply Qlt_bool_false in E. assert (Hx : (x == fst b)%Q) by lra. rewrite (interp_at b l2 x Hs' Hx), Hx. field. lra.
  - destruct (l1 ++ a :: b :: l2) as [|q l'] eqn:El; [destruct l1; discriminate|]. cbn [interp_loop].
    inversion Hs as [|? ? Hs' Hf]; subst.
    assert (Hq : (fst q <= fst a)%Q). { destruct l1 as [|q' l1]; cbn in El; injection El as -> <-; [lra|]. inversion Hs' as [|? ? _ Hf']; subst. rewrite Forall_forall in Hf'. apply Qlt_le_weak. apply Hf'. apply in_app_iff. right. now left. }
    assert (E : Qlt_bool x (fst q) = false) by (apply Qlt_bool_true_false; lra). rewrite E. apply (IH q l' a b l2 x); auto. lra.
Qed.
Lemma interp_last (p : Q * Q) l x : (forall q, In q (p :: l) -> (fst q <= x)%Q) -> interp_loop p l x = snd (last l p).
Proof.
  revert p. induction l as [|q l IH]; intros p H; cbn [interp_loop]; [reflexivity|]. assert (E : Qlt_bool x (fst q) = false) by (apply Qlt_bool_true_false; apply H; right; now left). rewrite E, IH by (intros r Hr; apply H; now right). destruct l; [reflexivity|].
  f_equal. clear. revert q p0. induction l as [|r l IH]; intros q p0; [reflexivity|]. cbn. apply (IH q r).
Qed.

Lemma last_In' {A} (l : list A) d : In (last l d) (d :: l).
Proof. revert d. induction l as [|x l IH]; intros d; [now left|]. destruct l as [|y l]; [right; now left|]. change (last (x :: y :: l) d) with (last (y :: l) d). destruct (IH d) as [H|H]; [now left|right; now right]. Qed.
Lemma sorted_last_max {V} (p : Q * V) l q : StronglySorted klt (p :: l) -> In q (p :: l) -> (fst q <= fst (last l p))%Q.
Proof.
  intros Hs Hq. destruct (In_nth_error _ _ Hq) as [i Hi]. assert (Hl : nth_error (p :: l) (length l) = Some (last l p)).
  { clear. revert p. induction l as [|x l IH]; intros p; [reflexivity|]. cbn [length nth_error]. rewrite IH. f_equal. clear. revert x p. induction l as [|y l IH]; intros x p; [reflexivity|]. cbn. destruct l; [reflexivity|]. apply (IH x p). }
  assert (Hil : (i < S (length l))%nat) by (change (S (length l)) with (length (p :: l)); apply nth_error_Some; congruence). destruct (Nat.eq_dec i (length l)) as [->|Hne]; [rewrite Hl in Hi; injection Hi as ->; lra|].
  apply Qlt_le_weak. apply (sorted_nth (p :: l) i (length l) q (last l p) Hs); [lia|exact Hi|exact Hl].
Qed.

Lemma linear_left points x k v : distinct_keys points -> In (k, v) points -> (forall k' v', In (k', v') points -> (k <= k')%Q) -> (x <= k)%Q -> exists y, linear_call points x = Ok y /\ (y == v)%Q.
Proof.
  intros Hd Hin Hmin Hx. unfold linear_call. pose proof (sort_items_perm points) as Hp. pose proof (sort_items_sorted points Hd) as Hs. destruct (sort_items points) as [|p l]; [apply Permutation_nil in Hp; subst; destruct Hin|].
  assert (E : p = (k, v)).
  { eapply Permutation_in in Hin; [|symmetry; exact Hp]. destruct Hin as [->|Hin]; [reflexivity|]. inversion Hs as [|? ? _ Hf]; subst. rewrite Forall_forall in Hf. specialize (Hf _ Hin). unfold klt in Hf. cbn [fst] in Hf. destruct p as [k' v']. cbn [fst] in Hf. assert (Hk : (k <= k')%Q); [|lra]. apply (Hmin k' v'). eapply Permutation_in; [exact Hp|now left]. }
  subst p. cbn [fst snd]. destruct (Qlt_bool x k) eqn:E; [exists v; split; [reflexivity|lra]|]. apply Qlt_bool_false in E. eexists. split; [reflexivity|]. apply (interp_at (k, v)); [exact Hs|cbn [fst]; lra].
Qed.
Lemma linear_right points x k v : distinct_keys points -> In (k, v) points -> (forall k' v', In (k', v') points -> (k' <= k)%Q) -> (k <= x)%Q -> exists y, linear_call points x = Ok y /\ (y == v)%Q.
Proof.
  intros Hd Hin Hmax Hx. unfold linear_call. pose proof (sort_items_perm points) as Hp. pose proof (sort_items_sorted points Hd) as Hs. destruct (sort_items points) as [|p l]; [apply Permutation_nil in Hp; subst; destruct Hin|].
  assert (Hall : forall q, In q (p :: l) -> (fst q <= x)%Q). { intros [k' v'] Hq. cbn [fst]. eapply Permutation_in in Hq; [|exact Hp]. specialize (Hmax _ _ Hq). lra. }
  assert (E : Qlt_bool x (fst p) = false) by (apply Qlt_bool_true_false; apply Hall; now left). rewrite E. eexists. split; [reflexivity|]. rewrite interp_last by exact Hall.
  pose proof (Permutation_in _ (Permutation_sym Hp) Hin) as Hin'. pose proof (sorted_last_max p l (k, v) Hs Hin') as H1. cbn [fst] in H1. pose proof (last_In' l p) as Hl. 
  destruct (last l p) as [k' v'] eqn:El. cbn [fst snd] in *. pose proof (Hmax k' v' (Permutation_in _ Hp Hl)) as H2.
  assert (Heq : (k', v') = (k, v)); [|injection Heq as -> ->; lra].
  destruct (In_nth_error _ _ Hl) as [i Hi], (In_nth_error _ _ Hin') as [j Hj]. destruct (Nat.lt_total i j) as [H|[H|H]].
  - pose proof (sorted_nth _ _ _ _ _ Hs H Hi Hj) as Hc. cbn [fst] in Hc. lra.
  - subst. congruence.
  - pose proof (sorted_nth _ _ _ _ _ Hs H Hj Hi) as Hc. cbn [fst] in Hc. lra.
Qed.
Lemma linear_between points x k1 v1 k2 v2 : distinct_keys points -> In (k1, v1) points -> In (k2, v2) points -> neighbours points k1 k2 -> (k1 <= x)%Q -> (x <= k2)%Q ->
  exists y, linear_call points x = Ok y /\ (y == v1 + (v2 - v1) / (k2 - k1) * (x - k1))%Q.
Proof.
  intros Hd H1 H2 [Hlt Hnb] Hx1 Hx2. unfold linear_call. pose proof (sort_items_perm points) as Hp. pose proof (sort_items_sorted points Hd) as Hs. set (l := sort_items points) in *.
  pose proof (Permutation_in _ (Permutation_sym Hp) H1) as I1. pose proof (Permutation_in _ (Permutation_sym Hp) H2) as I2. destruct (In_nth_error _ _ I1) as [i Hi], (In_nth_error _ _ I2) as [j Hj].
  assert (Hij : (i < j)%nat).
  { destruct (Nat.lt_total i j) as [H|[H|H]]; [exact H|subst j; rewrite Hi in Hj; injection Hj as -> ->; lra|]. pose proof (sorted_nth _ _ _ _ _ Hs H Hj Hi) as Hc. cbn [fst] in Hc. lra. }
  assert (Hjl : (j < length l)%nat) by (apply nth_error_Some; congruence).
  assert (Hadj : j = S i).
  { destruct (Nat.eq_dec j (S i)) as [|Hne]; [assumption|exfalso]. destruct (nth_error l (S i)) as [[k v]|] eqn:Ek; [|apply nth_error_None in Ek; lia].
    pose proof (sorted_nth _ _ _ _ _ Hs (Nat.lt_succ_diag_r i) Hi Ek) as A. assert (B : (S i < j)%nat) by lia. pose proof (sorted_nth _ _ _ _ _ Hs B Ek Hj) as C. cbn [fst] in A, C. destruct (Hnb k v); [eapply Permutation_in; [exact Hp|eapply nth_error_In; eauto]|lra|lra]. }
  subst j. destruct (nth_error_split _ _ Hi) as (la&lb&El&Hla). destruct lb as [|b lb].
  { exfalso. rewrite El, app_length in Hjl. cbn in Hjl. lia. }
  assert (Eb : b = (k2, v2)). { rewrite El in Hj. rewrite nth_error_app2 in Hj by lia. replace (S i - length la)%nat with 1%nat in Hj by lia. cbn in Hj. congruence. }
  subst b. destruct l as [|p l'] eqn:Ell; [destruct la; discriminate|].
  assert (Hpk : (fst p <= k1)%Q). { destruct la as [|q la]; cbn in El; injection El as -> ->; [cbn; lra|]. inversion Hs as [|? ? _ Hf]; subst. rewrite Forall_forall in Hf. apply Qlt_le_weak. specialize (Hf (k1, v1)). apply Hf. apply in_app_iff. right. now left. }
  assert (E : Qlt_bool x (fst p) = false) by (apply Qlt_bool_true_false; lra). rewrite E. eexists. split; [reflexivity|]. rewrite (interp_seg la p l' (k1, v1) (k2, v2) lb x Hs ltac:(lra) El Hx1 Hx2). reflexivity.
Qed.
