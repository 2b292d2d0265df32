From Coq Require Import Sorted.
From Verif Require Import Base ListLemmas Cached2Model Cached2Spec.
Local Open Scope nat_scope. Local Open Scope list_scope.

Lemma filter_lt_seq N : forall k a, filter (fun i => i <? N) (seq a k) = seq a (Nat.min (a + k) N - a).
Proof.
  induction k as [|k IH]; intros a; [cbn; now replace (Nat.min (a + 0) N - a) with 0 by lia|]. cbn [seq filter]. rewrite IH. destruct (Nat.ltb_spec a N).
  - replace (Nat.min (a + S k) N - a) with (S (Nat.min (S a + k) N - S a)) by lia. reflexivity.
  - replace (Nat.min (a + S k) N - a) with 0 by lia. replace (Nat.min (S a + k) N - S a) with 0 by lia. reflexivity.
Qed.
Lemma sorted_app (l1 l2 : list nat) : StronglySorted lt l1 -> StronglySorted lt l2 -> (forall x y, In x l1 -> In y l2 -> x < y) -> StronglySorted lt (l1 ++ l2).
Proof.
  induction 1 as [|x l1 Hs IH Hf]; intros H2 H; cbn [app]; [exact H2|]. constructor; [apply IH; [exact H2|intros a b Ha Hb; apply H; [now right|exact Hb]]|]. apply Forall_app. split; [exact Hf|]. apply Forall_forall. intros y Hy. apply H; [now left|exact Hy].
Qed.
Lemma sorted_seq k : forall a, StronglySorted lt (seq a k).
Proof. induction k as [|k IH]; intros a; cbn [seq]; constructor; [apply IH|]. apply Forall_forall. intros x Hx. apply in_seq in Hx. lia. Qed.

Section P.
  Context {A : Type}.
  Variable seqs : list A.
  Variable frames : A -> nat.
  Let N := length seqs.
  Definition cr := collect_range seqs.
  Lemma cr_step a b : cr a b = if a <? Nat.min b N then match nth_error seqs a with Some x => [(a, x)] | None => [] end ++ cr (S a) b else [].
  Proof.
    unfold cr, collect_range. destruct (Nat.ltb_spec a (Nat.min b N)).
    - replace (b - a) with (S (b - S a)) by lia. reflexivity.
    - assert (H' : forall k a, N <= a -> flat_map (fun i => match nth_error seqs i with Some x => [(i, x)] | None => [] end) (seq a k) = []). { induction k as [|k IH]; intros a0 Ha; [reflexivity|]. cbn [seq flat_map]. rewrite IH by lia. destruct (nth_error seqs a0) eqn:E; [|reflexivity]. assert (a0 < length seqs) by (apply nth_error_Some; congruence). unfold N in Ha. lia. }
      destruct (Nat.leb_spec N a) as [Ha|Ha]; [now apply H'|]. now replace (b - a) with 0 by lia.
  Qed.
  Lemma cr_nil a b : Nat.min b N <= a -> cr a b = [].
  Proof. intros H. rewrite cr_step. destruct (Nat.ltb_spec a (Nat.min b N)); [lia|reflexivity]. Qed.
  Lemma cr_cons a b : a < Nat.min b N -> exists x, nth_error seqs a = Some x /\ cr a b = (a, x) :: cr (S a) b.
  Proof. intros H. rewrite cr_step. destruct (Nat.ltb_spec a (Nat.min b N)); [|lia]. destruct (nth_error seqs a) as [x|] eqn:E; [exists x; auto|]. apply nth_error_None in E. unfold N in *. lia. Qed.
  Lemma cr_ind (P : nat -> Prop) b : (forall a, Nat.min b N <= a -> P a) -> (forall a, a < Nat.min b N -> P (S a) -> P a) -> forall a, P a.
  Proof. intros H1 H2 a. remember (Nat.min b N - a) as k eqn:Hk. revert a Hk. induction k as [|k IH]; intros a Hk; [apply H1; lia|]. apply H2; [lia|]. apply IH. lia. Qed.
  Lemma cr_eq b b' : Nat.min b N = Nat.min b' N -> forall a, cr a b = cr a b'.
  Proof. intros H. apply (cr_ind (fun a => cr a b = cr a b') b); [intros a Ha; rewrite !cr_nil by lia; reflexivity|]. intros a Ha IH. rewrite (cr_step a b), (cr_step a b'), IH. now rewrite H. Qed.
  Lemma cr_app b c : Nat.min b N <= Nat.min c N -> forall a, a <= Nat.min b N -> cr a b ++ cr (Nat.min b N) c = cr a c.
  Proof.
    intros H. apply (cr_ind (fun a => a <= Nat.min b N -> cr a b ++ cr (Nat.min b N) c = cr a c) b).
    - intros a Ha Hb. rewrite cr_nil by lia. cbn [app]. f_equal. lia.
    - intros a Ha IH _. destruct (cr_cons a b Ha) as (x&E&->). destruct (cr_cons a c ltac:(lia)) as (y&E'&->). rewrite E in E'. injection E' as ->. cbn [app]. f_equal. apply IH. lia.
  Qed.
  Lemma cr_cleanup b c : forall a, a <= c -> cleanup_old_seqs (cr a b) c = cr c b.
  Proof.
    apply (cr_ind (fun a => a <= c -> cleanup_old_seqs (cr a b) c = cr c b) b).
    - intros a Ha Hc. rewrite !cr_nil by lia. reflexivity.
    - intros a Ha IH Hc. destruct (cr_cons a b Ha) as (x&E&Ec). rewrite Ec. cbn [cleanup_old_seqs]. destruct (Nat.leb_spec c a); [|apply IH; lia]. assert (a = c) by lia. subst a. symmetry. exact Ec.
  Qed.
  Lemma cr_get b i : forall a, get_seq (cr a b) i = if (a <=? i) && (i <? b) then nth_error seqs i else None.
  Proof.
    apply (cr_ind (fun a => get_seq (cr a b) i = if (a <=? i) && (i <? b) then nth_error seqs i else None) b).
    - intros a Ha. rewrite cr_nil by exact Ha. cbn [get_seq]. destruct (Nat.leb_spec a i), (Nat.ltb_spec i b); cbn [andb]; try reflexivity. symmetry. apply nth_error_None. unfold N in *. lia.
    - intros a Ha IH. destruct (cr_cons a b Ha) as (x&E&->). cbn [get_seq]. rewrite IH. destruct (Nat.eqb_spec a i) as [-> |Hn]; [destruct (Nat.leb_spec i i), (Nat.ltb_spec i b); cbn [andb]; try lia; now rewrite E|]. destruct (Nat.leb_spec (S a) i), (Nat.leb_spec a i); try lia; reflexivity.
  Qed.
  Lemma cr_last b : forall a, last_idx (cr a b) = if a <? Nat.min b N then Some (Nat.min b N - 1) else None.
  Proof.
    apply (cr_ind (fun a => last_idx (cr a b) = if a <? Nat.min b N then Some (Nat.min b N - 1) else None) b).
    - intros a Ha. rewrite cr_nil by exact Ha. destruct (Nat.ltb_spec a (Nat.min b N)); [lia|reflexivity].
    - intros a Ha IH. destruct (cr_cons a b Ha) as (x&E&->). unfold last_idx in *. cbn [rev]. destruct (Nat.ltb_spec a (Nat.min b N)); [|lia]. destruct (rev (cr (S a) b)) as [|[j y] r] eqn:Er; cbn [app].
      + destruct (Nat.ltb_spec (S a) (Nat.min b N)); [discriminate|]. f_equal. lia.
      + destruct (Nat.ltb_spec (S a) (Nat.min b N)); [exact IH|discriminate].
  Qed.
  Definition frames_at (i : nat) : nat := match nth_error seqs i with Some x => frames x | None => 0 end.
  Lemma cr_sum b : forall a, list_sum (map (fun '(_, x) => frames x) (cr a b)) = list_sum (map frames_at (seq a (Nat.min b N - a))).
  Proof.
    apply (cr_ind (fun a => list_sum (map (fun '(_, x) => frames x) (cr a b)) = list_sum (map frames_at (seq a (Nat.min b N - a)))) b).
    - intros a Ha. rewrite cr_nil by exact Ha. now replace (Nat.min b N - a) with 0 by lia.
    - intros a Ha IH. destruct (cr_cons a b Ha) as (x&E&->). replace (Nat.min b N - a) with (S (Nat.min b N - S a)) by lia. cbn [map seq list_sum fold_right]. change (fold_right Nat.add 0) with list_sum. rewrite IH. unfold frames_at at 2. now rewrite E.
  Qed.

  Definition below (l : list nat) : list nat := filter (fun i => i <? N) l.
  Record inv (s : cache A) (lo h : nat) : Prop := {
    v_lo : expected_load_seq_start s = lo;
    v_added : added_data s = cr lo h;
    v_num : c_num_seqs s = None \/ c_num_seqs s = Some N;
    v_final : reached_final_seq s = true -> N <= h;
    v_sorted : StronglySorted lt (below (collected s));
    v_bound : forall i, In i (below (collected s)) -> i < Nat.max lo (Nat.min h N);
    v_acc : num_timesteps_accumulated s = list_sum (map frames_at (below (collected s))) }.
  Definition full (s : cache A) (h : nat) : Prop := below (collected s) = seq 0 (Nat.min h N).
  Lemma load_inv s lo h a b : inv s lo h -> lo <= a -> exists s', load_seqs_ seqs frames s a b = Ok s' /\ inv s' a (Nat.max h b) /\ c_num_seqs s' = c_num_seqs s /\ (a <= h -> full s h -> full s' (Nat.max h b)).
  Proof.
    intros [H1 H2 H3 H4 H5 H6 H7] Ha. unfold load_seqs_. rewrite H1. destruct (Nat.leb_spec lo a); [|lia]. cbn [assert_ bind].
    assert (Hx : (if lo <? a then (cleanup_old_seqs (added_data s) a, a) else (added_data s, lo)) = (cr a h, a)).
    { destruct (Nat.ltb_spec lo a); [rewrite H2, cr_cleanup by lia; reflexivity|]. assert (a = lo) by lia. subst a. now rewrite H2. }
    rewrite Hx. rewrite cr_last. set (start := match (if a <? Nat.min h N then Some (Nat.min h N - 1) else None) with Some i => Nat.max (i + 1) a | None => a end).
    assert (Hs : start = Nat.max a (Nat.min h N)) by (unfold start; destruct (Nat.ltb_spec a (Nat.min h N)); lia). clearbody start. subst start. set (start := Nat.max a (Nat.min h N)).
    eexists. split; [reflexivity|]. cbn [c_num_seqs]. split; [|split; [reflexivity|]].
    - constructor; cbn [expected_load_seq_start added_data reached_final_seq c_num_seqs num_timesteps_accumulated collected]; try assumption; try reflexivity.
      + fold cr. destruct (Nat.leb_spec (Nat.min h N) a) as [Hw|Hw].
        * rewrite cr_nil by exact Hw. cbn [app]. replace start with a by (unfold start; lia). change (collect_range seqs a b) with (cr a b). destruct (Nat.leb_spec (Nat.min b N) a); [rewrite !cr_nil by lia; reflexivity|apply cr_eq; lia].
        * replace start with (Nat.min h N) by (unfold start; lia). change (collect_range seqs (Nat.min h N) b) with (cr (Nat.min h N) b). destruct (Nat.leb_spec (Nat.min b N) (Nat.min h N)); [rewrite (cr_nil (Nat.min h N)) by lia; rewrite app_nil_r; apply cr_eq; lia|]. rewrite cr_app by lia. apply cr_eq. lia.
      + intros E. specialize (H4 E). lia.
      + unfold below. rewrite filter_app, filter_lt_seq. apply sorted_app; [exact H5|apply sorted_seq|]. intros x y Hx' Hy. apply H6 in Hx'. apply in_seq in Hy. unfold start in Hy. lia.
      + unfold below. rewrite filter_app, filter_lt_seq. intros i Hi. apply in_app_or in Hi. destruct Hi as [Hi|Hi]; [apply H6 in Hi; lia|]. apply in_seq in Hi. unfold start in *. lia.
      + change (collect_range seqs start b) with (cr start b). rewrite cr_sum, H7. unfold below. rewrite filter_app, map_app, list_sum_app, filter_lt_seq. f_equal. f_equal. f_equal. f_equal. lia.
    - unfold full. cbn [collected]. intros Hah Hf. unfold below in *. rewrite filter_app, Hf, filter_lt_seq. destruct (Nat.leb_spec (Nat.min b N) start) as [Hb|Hb].
      + replace (Nat.min (start + (b - start)) N - start) with 0 by lia. cbn [seq]. rewrite app_nil_r. f_equal. unfold start in *. lia.
      + replace start with (0 + Nat.min h N) by (unfold start in *; lia). rewrite <- seq_app. f_equal. unfold start in *. lia.
  Qed.
  Lemma inv_init known : inv (init_seq_order seqs known) 0 0.
  Proof. constructor; cbn [init_seq_order expected_load_seq_start added_data reached_final_seq c_num_seqs num_timesteps_accumulated collected below filter]; [reflexivity|symmetry; apply cr_nil; lia|destruct known; auto|discriminate|constructor|contradiction|reflexivity]. Qed.
  Definition keeps (s s' : cache A) (h h' : nat) : Prop := h <= h' /\ (full s h -> full s' h').
  Lemma less_inv s lo h n : inv s lo h -> lo < N -> exists s' h', is_less_than_num_seqs seqs frames s n = (s', Ok (n <? N)) /\ inv s' lo h' /\ h <= h' /\ (lo <= h -> full s h -> full s' h').
  Proof.
    intros Hi Hlo. unfold is_less_than_num_seqs. rewrite (v_lo _ _ _ Hi). destruct (Nat.ltb_spec n lo); [exists s, h; destruct (Nat.ltb_spec n N); [auto|lia]|].
    destruct (v_num _ _ _ Hi) as [E|E]; rewrite E; [|exists s, h; auto].
    destruct (load_inv s lo h lo (n + 1) Hi (le_n _)) as (s'&->&Hi'&Hn&Hf). rewrite (v_added _ _ _ Hi'), cr_get, cr_last. destruct (Nat.leb_spec lo n); [|lia]. destruct (Nat.ltb_spec n (Nat.max h (n + 1))); [|lia]. cbn [andb]. destruct (nth_error seqs n) as [x|] eqn:Ex.
    - assert (n < N) by (apply nth_error_Some; congruence). destruct (Nat.ltb_spec n N); [|lia]. exists s', (Nat.max h (n + 1)). split; [reflexivity|]. split; [exact Hi'|]. split; [lia|exact Hf].
    - apply nth_error_None in Ex. fold N in Ex. destruct (Nat.ltb_spec lo (Nat.min (Nat.max h (n + 1)) N)); [|lia]. destruct (Nat.leb_spec (Nat.min (Nat.max h (n + 1)) N - 1 + 1) n); [|lia]. destruct (Nat.ltb_spec n N); [lia|]. eexists _, (Nat.max h (n + 1)). split; [reflexivity|]. split; [|split; [lia|exact Hf]]. destruct Hi' as [K1 K2 K3 K4 K5 K6 K7]. constructor; cbn [expected_load_seq_start added_data reached_final_seq c_num_seqs num_timesteps_accumulated collected]; [exact K1|reflexivity|right; f_equal; lia|intros _; lia|exact K5|exact K6|exact K7].
  Qed.
  Lemma data_inv s lo h i : inv s lo h -> get_data s i = if (lo <=? i) && (i <? h) then match nth_error seqs i with Some x => Ok x | None => Err OtherException end else Err OtherException.
  Proof. intros Hi. unfold get_data. rewrite (v_added _ _ _ Hi), cr_get. destruct ((lo <=? i) && (i <? h)); reflexivity. Qed.
  Lemma length_inv s lo h i : inv s lo h -> exists s' h', fst (get_seq_length seqs frames s i) = s' /\ inv s' lo h' /\ h <= h' /\ (lo <= i -> i < h') /\ (lo <= h -> full s h -> full s' h') /\
    (forall n, snd (get_seq_length seqs frames s i) = Ok n -> exists x, nth_error seqs i = Some x /\ n = frames x) /\ (lo <= i < N -> exists n, snd (get_seq_length seqs frames s i) = Ok n).
  Proof.
    intros Hi. unfold get_seq_length. rewrite (v_lo _ _ _ Hi). destruct (Nat.leb_spec lo i) as [Hl|Hl]; cbn [assert_].
    - unfold load_seqs. destruct (Nat.leb_spec lo (i + 1)); [|lia]. cbn [assert_ bind]. destruct (load_inv s lo h lo (i + 1) Hi (le_n _)) as (s'&->&Hi'&_&Hf). cbn [fst snd]. exists s', (Nat.max h (i + 1)). split; [reflexivity|]. split; [exact Hi'|]. split; [lia|]. split; [lia|]. split; [exact Hf|]. rewrite (data_inv s' lo _ i Hi'). destruct (Nat.leb_spec lo i); [|lia]. destruct (Nat.ltb_spec i (Nat.max h (i + 1))); [|lia]. cbn [andb]. destruct (nth_error seqs i) as [x|] eqn:E; cbn [bind].
      + split; [intros n [= <-]; eauto|eauto].
      + split; [discriminate|]. intros Hx. apply nth_error_None in E. unfold N in Hx. lia.
    - cbn [fst snd]. exists s, h. split; [reflexivity|]. split; [exact Hi|]. split; [lia|]. split; [lia|]. split; [auto|]. split; [discriminate|lia].
  Qed.
  Lemma calls_lemma : 0 < N -> forall ops s lo hi h, inv s lo h -> hi <= h -> lo < N -> forward_history seqs lo ops ->
    right_answers seqs frames lo hi ops (snd (calls seqs frames s ops)) /\
    exists lo' h', inv (fst (calls seqs frames s ops)) lo' h' /\ (lo <= h -> full s h -> no_gaps hi ops -> full (fst (calls seqs frames s ops)) h').
  Proof.
    intros HN ops. induction ops as [|o ops IH]; intros s lo hi h Hi Hh Hlo Hf; [split; [exact I|exists lo, h; split; [exact Hi|auto]]|]. cbn [calls]. destruct o as [a b|n|i|i|]; cbn [call forward_history] in *.
    - destruct Hf as (Ha&Hab&HaN&Hf). unfold load_seqs. destruct (Nat.leb_spec a b); [|lia]. cbn [assert_ bind]. destruct (load_inv s lo h a b Hi Ha) as (s'&->&Hi'&_&Hfull). destruct (IH s' a (Nat.max hi b) (Nat.max h b) Hi' ltac:(lia) HaN Hf) as [R (lo'&h'&R1&R2)]. destruct (calls seqs frames s' ops) as [s'' l]. cbn [fst snd] in *. split; [split; [reflexivity|exact R]|]. exists lo', h'. split; [exact R1|]. intros Hlh Hfu [Hg1 Hg2]. apply R2; [lia|apply Hfull; [lia|exact Hfu]|exact Hg2].
    - destruct (less_inv s lo h n Hi Hlo) as (s'&h1&->&Hi'&Hh1&Hfull). destruct (IH s' lo hi h1 Hi' ltac:(lia) Hlo Hf) as [R (lo'&h'&R1&R2)]. destruct (calls seqs frames s' ops) as [s'' l]. cbn [fst snd] in *. split; [split; [reflexivity|exact R]|]. exists lo', h'. split; [exact R1|]. intros Hlh Hfu Hg. apply R2; [lia|now apply Hfull|exact Hg].
    - destruct (IH s lo hi h Hi Hh Hlo Hf) as [R (lo'&h'&R1&R2)]. destruct (calls seqs frames s ops) as [s'' l]. cbn [fst snd] in *. split; [|exists lo', h'; split; [exact R1|exact R2]]. cbn [right_answers]. rewrite (data_inv s lo h i Hi). split; [|split; [|exact R]].
      + destruct ((lo <=? i) && (i <? h)); [|discriminate]. destruct (nth_error seqs i); [|discriminate]. intros x [= ->]. reflexivity.
      + intros H1 H2. destruct (Nat.leb_spec lo i); [|lia]. destruct (Nat.ltb_spec i h); [|lia]. cbn [andb]. destruct (nth_error seqs i) as [x|] eqn:E; [eauto|]. apply nth_error_None in E. lia.
    - destruct (length_inv s lo h i Hi) as (s'&h1&E&Hi'&Hh1&Hih&Hfull&Q1&Q2). destruct (get_seq_length seqs frames s i) as [s0 r]. cbn [fst snd] in *. subst s0. destruct (IH s' lo (if lo <=? i then Nat.max hi (i + 1) else hi) h1 Hi' ltac:(destruct (Nat.leb_spec lo i); lia) Hlo Hf) as [R (lo'&h'&R1&R2)]. destruct (calls seqs frames s' ops) as [s'' l]. cbn [fst snd] in *. split; [split; [exact Q1|split; [exact Q2|exact R]]|]. exists lo', h'. split; [exact R1|]. intros Hlh Hfu Hg. apply R2; [lia|now apply Hfull|].
      cbn [no_gaps] in Hg. clear - Hg. destruct (lo <=? i); [|exact Hg]. assert (Hmono : forall ops hi hi', hi <= hi' -> no_gaps hi ops -> no_gaps hi' ops). { clear. induction ops as [|o ops IH]; intros hi hi' H; [auto|]. destruct o; cbn [no_gaps]; try (now apply IH). intros [H1 H2]. split; [lia|]. eapply IH; [|exact H2]. lia. } eapply Hmono; [|exact Hg]. lia.
    - destruct (IH s lo hi h Hi Hh Hlo Hf) as [R (lo'&h'&R1&R2)]. destruct (calls seqs frames s ops) as [s'' l]. cbn [fst snd] in *. split; [exact R|exists lo', h'; split; [exact R1|exact R2]].
  Qed.
End P.
