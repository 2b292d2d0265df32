From Coq Require Import Permutation.
From Verif Require Import Base ListLemmas BatchSetModel BatchSetSpec.

Section P.
Context {B : Type}.
Variable all : list B.
(** [ep]: the batches of this epoch in their order; [pos]: how many are passed. *)
Definition inv (s : bsg B) (ep : list B) (pos : nat) : Prop :=
  Permutation ep all /\ (g_shuffle s = false -> ep = all) /\
  (g_whole s = true -> g_cache s ++ g_gen s = all) /\
  (g_active s = true -> g_gen s = []) /\ (g_end s = true -> g_gen s = []) /\
  pos <= length ep /\ skipn pos ep = g_buffer s ++ g_gen s.

Lemma read_next_inv s ep pos : inv s ep pos -> inv (snd (read_next s)) ep pos /\
  g_buffer (snd (read_next s)) = (g_buffer s ++ (if g_end s then [] else firstn 1 (g_gen s)))%list /\ fst (read_next s) = (if g_end s then false else match g_gen s with [] => false | _ => true end) /\
  g_whole (snd (read_next s)) = g_whole s.
Proof.
  intros Hi. pose proof Hi as (P1&P2&P3&P4&P5&P6&P7). unfold read_next. destruct (g_end s) eqn:E; [cbn [fst snd]; rewrite app_nil_r; auto|].
  destruct (g_gen s) as [|b gen] eqn:Eg; cbn [fst snd g_buffer firstn g_whole].
  - split; [|rewrite app_nil_r; auto]. unfold inv. cbn [g_gen g_whole g_shuffle g_cache g_buffer g_active g_end]. split; [exact P1|]. split; [exact P2|]. split; [exact P3|]. split; [reflexivity|]. split; [reflexivity|]. split; [exact P6|exact P7].
  - split; [|auto]. unfold inv. cbn [g_gen g_whole g_shuffle g_cache g_buffer g_active g_end]. split; [exact P1|]. split; [exact P2|]. split.
    + intros Hw. specialize (P3 Hw). rewrite Hw. cbn [andb]. destruct (g_active s) eqn:Ea; [specialize (P4 eq_refl); discriminate|]. cbn [negb]. rewrite <- app_assoc. exact P3.
    + split; [intros Ha; specialize (P4 Ha); discriminate|]. split; [congruence|]. split; [exact P6|]. rewrite P7, <- app_assoc. reflexivity.
Qed.
Lemma read_up_to_inv i n s ep pos : inv s ep pos -> n <= length (g_buffer s) + i -> inv (read_up_to i n s) ep pos /\
  (n <= length (g_buffer (read_up_to i n s)) \/ g_gen (read_up_to i n s) = []) /\ g_whole (read_up_to i n s) = g_whole s.
Proof.
  revert s. induction i as [|i IH]; intros s Hi Hn; cbn [read_up_to]; [split; [exact Hi|split; [left; lia|reflexivity]]|]. destruct (Nat.leb_spec n (length (g_buffer s))) as [Hle|Hlt]; [split; [exact Hi|split; [now left|reflexivity]]|].
  destruct (read_next_inv s ep pos Hi) as (H1&H2&H3&H4). destruct (read_next s) as [m s'] eqn:E. cbn [fst snd] in *. destruct m.
  - destruct (IH s' H1) as (A&B'&C); [|split; [exact A|split; [exact B'|congruence]]]. rewrite H2, app_length. destruct (g_end s); [discriminate|]. destruct (g_gen s); [discriminate|]. cbn. lia.
  - split; [exact H1|]. split; [|exact H4]. right. unfold read_next in E. pose proof Hi as (_&_&_&_&P5&_). destruct (g_end s) eqn:Ee; [injection E as <-; auto|]. destruct (g_gen s); [injection E as <-; reflexivity|discriminate].
Qed.
Lemma firstn_prefix {A} n (l l' : list A) : n <= length l \/ l' = [] -> firstn n (l ++ l') = firstn n l.
Proof. intros [H| ->]; [rewrite firstn_app; replace (n - length l) with 0 by lia; cbn; apply app_nil_r|now rewrite app_nil_r]. Qed.

Lemma skipn_len {A} n (l : list A) : n <= length l -> length l = n + length (skipn n l).
Proof. intros H. rewrite skipn_length. lia. Qed.

Lemma read_next_shuffle (s : bsg B) : g_shuffle (snd (read_next s)) = g_shuffle s.
Proof. unfold read_next. destruct (g_end s); [reflexivity|]. destruct (g_gen s); reflexivity. Qed.
Lemma read_up_to_shuffle i n (s : bsg B) : g_shuffle (read_up_to i n s) = g_shuffle s.
Proof.
  revert s. induction i as [|i IH]; intros s; cbn [read_up_to]; [reflexivity|]. destruct (n <=? length (g_buffer s)); [reflexivity|]. pose proof (read_next_shuffle s) as H. destruct (read_next s) as [[] s']; cbn [snd] in H; [now rewrite IH|exact H].
Qed.
Lemma exec_shuffle (s : bsg B) o a s' : exec o s = Ok (a, s') -> g_shuffle s' = g_shuffle s.
Proof.
  destruct o as [n|n| |sh]; cbn [exec]; intros He.
  - unfold peek_next_n in He. apply Ok_inj in He. injection He as <- <-. apply read_up_to_shuffle.
  - apply bind_Ok in He. destruct He as (s1&He&Hr). apply Ok_inj in Hr. injection Hr as <- <-. unfold advance in He. apply bind_Ok in He. destruct He as ([]&_&He). apply bind_Ok in He. destruct He as ([]&_&He). apply Ok_inj in He. subst s1. apply read_up_to_shuffle.
  - unfold has_more in He. destruct (g_buffer s); [|apply Ok_inj in He; now injection He as <- <-]. pose proof (read_next_shuffle s) as H. destruct (read_next s). apply Ok_inj in He. now injection He as <- <-.
  - apply bind_Ok in He. destruct He as (s1&He&Hr). apply Ok_inj in Hr. injection Hr as <- <-. unfold reset in He. apply bind_Ok in He. destruct He as ([]&_&He). apply Ok_inj in He. now subst s1.
Qed.

Definition next_pos (o : op B) (pos : nat) : nat := match o with Advance k => pos + k | Reset _ => 0 | _ => pos end.
Lemma exec_inv s ep pos o a s' : inv s ep pos -> exec o s = Ok (a, s') -> (forall sh, o = Reset sh -> forall l, Permutation (sh l) l) ->
  exists ep', inv s' ep' (next_pos o pos) /\ (match o with Reset _ => a = WasReset | _ => ep' = ep /\ reads ep pos [(o, a)] end) /\ g_whole s' = g_whole s.
Proof.
  intros Hi He Hsh. pose proof Hi as (P1&P2&P3&P4&P5&P6&P7). destruct o as [n|n| |sh]; cbn [exec next_pos] in *.
  - unfold peek_next_n in He. apply Ok_inj in He. injection He as <- <-. destruct (read_up_to_inv n n s ep pos Hi) as (A&B'&C); [lia|]. exists ep. split; [exact A|]. split; [|exact C]. split; [reflexivity|]. cbn [reads]. split; [|exact I].
    destruct A as (_&_&_&_&_&_&Q). rewrite Q. symmetry. now apply firstn_prefix.
  - apply bind_Ok in He. destruct He as (s1&He&Hr). apply Ok_inj in Hr. injection Hr as <- <-. unfold advance in He. apply bind_Ok in He. destruct He as ([]&Hn&He). apply assert_Ok, Nat.ltb_lt in Hn. apply bind_Ok in He. destruct He as ([]&Hl&He). apply assert_Ok, Nat.leb_le in Hl. apply Ok_inj in He. subst s1.
    destruct (read_up_to_inv n n s ep pos Hi) as (A&_&C); [lia|]. set (s1 := read_up_to n n s) in *. destruct A as (Q1&Q2&Q3&Q4&Q5&Q6&Q7). 
    assert (Hle : pos + n <= length ep) by (rewrite (skipn_len pos ep Q6), Q7, app_length; lia).
    exists ep. split; [|split; [split; [reflexivity|]; cbn [reads]; auto|exact C]]. unfold inv. cbn [g_gen g_whole g_shuffle g_cache g_buffer g_active g_end]. repeat (split; [assumption|]).
    replace (pos + n) with (n + pos) by lia. rewrite <- skipn_skipn', Q7, skipn_app. replace (n - length (g_buffer s1)) with 0 by lia. reflexivity.
  - unfold has_more in He. destruct (g_buffer s) as [|b bs] eqn:Eb.
    + destruct (read_next_inv s ep pos Hi) as (H1&H2&H3&H4). destruct (read_next s) as [m s1] eqn:E. apply Ok_inj in He. injection He as <- <-. cbn [fst snd] in *. exists ep. split; [exact H1|]. split; [|exact H4]. split; [reflexivity|]. cbn [reads]. split; [|exact I].
      rewrite (skipn_len pos ep P6), P7. cbn [app]. rewrite H3. destruct (g_end s) eqn:Ee; [rewrite P5 by reflexivity; cbn; split; [discriminate|lia]|]. destruct (g_gen s); cbn; split; try discriminate; try reflexivity; lia.
    + apply Ok_inj in He. injection He as <- <-. exists ep. split; [exact Hi|]. split; [|reflexivity]. split; [reflexivity|]. cbn [reads]. split; [|exact I]. rewrite (skipn_len pos ep P6), P7. cbn. split; [lia|reflexivity].
  - apply bind_Ok in He. destruct He as (s1&He&Hr). apply Ok_inj in Hr. injection Hr as <- <-. unfold reset in He. apply bind_Ok in He. destruct He as ([]&Hw&He). apply assert_Ok in Hw. apply Ok_inj in He. subst s1.
    exists ((if g_shuffle s then sh (g_cache s) else g_cache s) ++ g_gen s)%list. split; [|split; reflexivity]. unfold inv, reset_. cbn [g_gen g_whole g_shuffle g_cache g_buffer g_active g_end skipn]. specialize (P3 Hw).
    split; [rewrite <- P3; destruct (g_shuffle s); [apply Permutation_app_tail; now apply (Hsh sh eq_refl)|reflexivity]|]. split; [intros ->; exact P3|]. split; [auto|]. split; [exact P5|]. split; [discriminate|]. split; [lia|reflexivity].
Qed.

Lemma fold_snoc {A C} (f : A -> C -> A) l x a : fold_left f (l ++ [x]) a = f (fold_left f l a) x.
Proof. now rewrite fold_left_app. Qed.
Lemma reads_snoc (ep : list B) h : forall pos o a, reads ep pos h -> (match o with Reset _ => False | _ => reads ep (fold_left (fun n oa => match fst oa with Advance k => n + k | Reset _ => 0 | _ => n end) h pos) [(o, a)] end) -> reads ep pos (h ++ [(o, a)]).
Proof.
  induction h as [|[o' a'] h IH]; intros pos o a Hr Hn; cbn [app].
  - cbn [fold_left] in Hn. destruct o; [exact Hn|exact Hn|exact Hn|destruct Hn].
  - destruct o' as [n|n| |sh], a'; cbn [reads fold_left fst] in *; try contradiction; intuition.
Qed.
Lemma history_inv sh0 wh sf h s : (forall l, Permutation (sh0 l) l) -> history (init all sf wh sh0) h s -> fair h ->
  exists ep, inv s ep (passed h) /\ reads ep 0 (this_epoch h) /\ fold_left (fun n oa => match fst oa with Advance k => n + k | Reset _ => 0 | _ => n end) (this_epoch h) 0 = passed h.
Proof.
  intros Hsh0 H. induction H as [|h s o a s' H IH He]; intros Hf.
  - exists all. split; [|split; [exact I|reflexivity]]. unfold inv, init, reset_. cbn [g_gen g_whole g_shuffle g_cache g_buffer g_active g_end passed fold_left skipn].
    assert (Hnil : (if sf then sh0 [] else []) = []) by (destruct sf; [apply Permutation_nil; symmetry; apply Hsh0|reflexivity]). rewrite Hnil. split; [reflexivity|]. split; [reflexivity|]. split; [reflexivity|]. split; [discriminate|]. split; [discriminate|]. split; [apply Nat.le_0_l|reflexivity].
  - destruct IH as (ep&Hi&Hr&Hp); [intros sh a' Hin; apply (Hf sh a'); apply in_app_iff; now left|].
    assert (Hsh : forall sh, o = Reset sh -> forall l, Permutation (sh l) l) by (intros sh -> l; apply (Hf sh a); apply in_app_iff; right; now left).
    destruct (exec_inv _ _ _ _ _ _ Hi He Hsh) as (ep'&H1&H2&_). exists ep'. unfold passed, this_epoch in *. rewrite !fold_snoc. cbn [fst]. destruct o as [n|n| |sh]; cbn [next_pos] in H1.
    1-3: destruct H2 as [-> H2]; split; [exact H1|]; split; [apply reads_snoc; [exact Hr|]; rewrite Hp; exact H2|]; rewrite fold_snoc, Hp; reflexivity.
    split; [exact H1|]. split; [exact I|reflexivity].
Qed.
Lemma advance_ok s ep pos n : inv s ep pos -> (exists s', advance n s = Ok s' /\ g_last s' = nth_error ep (pos + n - 1) /\ g_idx s' = g_idx (read_up_to n n s) + n) <-> (0 < n /\ pos + n <= length all).
Proof.
  intros Hi. destruct (read_up_to_inv n n s ep pos Hi) as (A&B'&C); [lia|]. unfold advance. set (s1 := read_up_to n n s) in *. destruct A as (Q1&Q2&Q3&Q4&Q5&Q6&Q7). pose proof (Permutation_length Q1) as Hlen. pose proof (skipn_len pos ep Q6) as Hsk. rewrite Q7, app_length in Hsk. split.
  - intros (s'&He&_). apply bind_Ok in He. destruct He as ([]&Hn&He). apply assert_Ok, Nat.ltb_lt in Hn. apply bind_Ok in He. destruct He as ([]&Hl&He). apply assert_Ok, Nat.leb_le in Hl. lia.
  - intros [Hn Hl]. pose proof Hn as Hn0. apply Nat.ltb_lt in Hn as ->. cbn [assert_ bind]. assert (Hb : n <= length (g_buffer s1)) by (destruct B' as [Hb|Hb]; [exact Hb|rewrite Hb in Hsk; cbn in Hsk; lia]). apply Nat.leb_le in Hb as Hb'. rewrite Hb'. cbn [assert_ bind]. eexists. split; [reflexivity|]. cbn [g_last g_idx]. split; [|reflexivity].
    rewrite <- (nth_error_app1 _ (g_gen s1)) by lia. rewrite <- Q7. rewrite nth_error_skipn'. f_equal. lia.
Qed.
Lemma advance_iff s ep pos n : inv s ep pos -> (exists s', advance n s = Ok s') <-> (0 < n /\ pos + n <= length all).
Proof.
  intros Hi. rewrite <- (advance_ok s ep pos n Hi). split; [|intros (s'&H&_); now exists s']. intros (s'&He). pose proof (advance_ok s ep pos n Hi) as [_ Hb]. apply Hb. clear Hb.
  destruct (exec_inv s ep pos (Advance n) Advanced s' Hi) as (ep'&(Hp&_)&(->&Hr)&_); [cbn [exec]; now rewrite He|discriminate|]. cbn [reads] in Hr. rewrite <- (Permutation_length Hp). tauto.
Qed.
End P.

(** For examples: a computed run is a history. *)
Fixpoint exec_all {B} (os : list (op B)) (s : bsg B) : res (list (op B * answer B) * bsg B) :=
  match os with
  | [] => Ok ([], s)
  | o :: os' => let* r := exec o s in let* r' := exec_all os' (snd r) in Ok ((o, fst r) :: fst r', snd r')
  end.
Lemma exec_all_history {B} (s0 : bsg B) os : forall h s h' s', history s0 h s -> exec_all os s = Ok (h', s') -> history s0 (h ++ h') s'.
Proof.
  induction os as [|o os IH]; intros h s h' s' H He; cbn [exec_all] in He.
  - apply Ok_inj in He. injection He as <- <-. now rewrite app_nil_r.
  - apply bind_Ok in He. destruct He as ([a s1]&H1&He). apply bind_Ok in He. destruct He as ([h1 s2]&H2&He). apply Ok_inj in He. injection He as <- <-. cbn [fst snd] in *.
    change ((o, a) :: h1)%list with ([(o, a)] ++ h1)%list. rewrite app_assoc. eapply IH; [|exact H2]. eapply h_step; eassumption.
Qed.
