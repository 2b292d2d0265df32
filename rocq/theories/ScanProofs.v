From Coq Require Import List Arith Bool Lia.
From Verif Require Import Base ListLemmas ScanModel ScanSpec.
Import ListNotations.

Lemma nth_combine {A B} (a : list A) (b : list B) k :
  nth_error (combine a b) k = match nth_error a k, nth_error b k with Some x, Some y => Some (x, y) | _, _ => None end.
Proof.
  revert b k. induction a as [|x a IH]; intros b k; [destruct k; reflexivity|]. destruct b as [|y b]; destruct k; cbn; try reflexivity.
  - destruct (nth_error a k); reflexivity.
  - apply IH.
Qed.
Lemma nth_map' {A B} (f : A -> B) l k : nth_error (map f l) k = option_map f (nth_error l k).
Proof. apply nth_error_map. Qed.
Lemma nth_where {A} m (a b : list A) k c x y : nth_error m k = Some c -> nth_error a k = Some x -> nth_error b k = Some y ->
  nth_error (where_ m a b) k = Some (if c then x else y).
Proof. intros H1 H2 H3. unfold where_. rewrite nth_map', nth_combine, H1, nth_combine, H2, H3. reflexivity. Qed.
Lemma where_length {A} m (a b : list A) n : length m = n -> length a = n -> length b = n -> length (where_ m a b) = n.
Proof. intros. unfold where_. rewrite map_length, !combine_length. lia. Qed.

Lemma max_le l x : In x l -> x <= list_max_ l.
Proof. induction l as [|y l IH]; [intros []|]. unfold list_max_ in *. cbn [fold_right]. intros [->|H]; [lia|]. specialize (IH H). lia. Qed.
Lemma max_is l : is_max (list_max_ l) l.
Proof.
  split; [intros x Hx; now apply max_le|]. induction l as [|y l IH]; [right; auto|]. left. unfold list_max_ in *. cbn [fold_right].
  destruct (Nat.max_dec y (fold_right max 0 l)) as [E|E]; rewrite E; [now left|]. destruct IH as [IH|[IH ->]]; [now right|]. cbn in E |- *. lia.
Qed.
Lemma is_max_unique n n' l : is_max n l -> is_max n' l -> n = n'.
Proof.
  intros [H1 H2] [H3 H4]. destruct H2 as [H2|[-> ->]], H4 as [H4|[-> E]]; auto.
  - apply H3 in H2. apply H1 in H4. lia.
  - subst. destruct H2.
  - destruct H4.
Qed.

Lemma iter_r {A} (f : A -> A) n x : Nat.iter n f (f x) = f (Nat.iter n f x).
Proof. induction n as [|n IH]; cbn; [reflexivity|]. now f_equal. Qed.

Section While.
Context {A : Type}.
(* total bodies *)
Lemma while_run (cond : A -> bool) (body : A -> res A) (P : nat -> A -> Prop) n s fuel :
  P 0 s -> (forall i s, P i s -> i < n -> cond s = true /\ exists s', body s = Ok s' /\ P (i + 1) s') ->
  (forall s, P n s -> cond s = false) -> n < fuel ->
  exists s', while_loop fuel cond body s = Ok s' /\ P n s'.
Proof.
  intros H0 Hs He. assert (forall k i s fuel, P i s -> i + k = n -> k < fuel -> exists s', while_loop fuel cond body s = Ok s' /\ P n s') as G.
  { induction k as [|k IH]; intros i s1 fu HP Hi Hf; (destruct fu as [|fu]; [lia|]); cbn [while_loop].
    - replace i with n in * by lia. rewrite (He s1 HP). now exists s1.
    - destruct (Hs i s1 HP) as [-> (s' & -> & HP')]; [lia|]. cbn [bind]. apply (IH (i + 1)); [exact HP'|lia|lia]. }
  intros Hf. apply (G n 0 s fuel); auto.
Qed.
End While.

Section Known.
Context {X H S Y : Type}.
Variables (fh : H -> H) (fs : X -> H -> S -> Y * S).

Lemma alone_snoc h s (l : list X) x : alone fh fs h s (l ++ [x]) =
  let '(ys, s1) := alone fh fs h s l in let '(y, s2) := fs x (Nat.iter (length l) fh h) s1 in (ys ++ [y], s2).
Proof.
  revert h s. induction l as [|a l IH]; intros h s; cbn [app alone length].
  - cbn [Nat.iter nat_rect]. destruct (fs x h s) as [y s2]. reflexivity.
  - destruct (fs a h s) as [y0 s0]. rewrite IH. destruct (alone fh fs (fh h) s0 l) as [ys s1].
    replace (Nat.iter (length l) fh (fh h)) with (Nat.iter (Datatypes.S (length l)) fh h) by (cbn; now rewrite iter_r).
    destruct (fs x _ s1) as [y s2]. reflexivity.
Qed.
Lemma alone_length h s (l : list X) : length (fst (alone fh fs h s l)) = length l.
Proof.
  revert h s. induction l as [|a l IH]; intros h s; cbn [alone]; [reflexivity|]. destruct (fs a h s) as [y s']. specialize (IH (fh h) s').
  destruct (alone fh fs (fh h) s' l). cbn [fst length] in *. lia.
Qed.

Definition KInv (xs : list (list X)) (lens : list nat) h0 (init : list S) (i : nat) (s : nat * (H * list S) * list (list Y)) : Prop :=
  let '(i', (h, ss), ys) := s in
  i' = i /\ length ys = i /\ h = Nat.iter i fh h0 /\ length ss = length lens /\
  forall b n s0 l, nth_error lens b = Some n -> nth_error init b = Some s0 -> own xs b (min i n) l ->
    nth_error ss b = Some (snd (alone fh fs h0 s0 l)) /\
    forall t y, nth_error (fst (alone fh fs h0 s0 l)) t = Some y -> exists f, nth_error ys t = Some f /\ nth_error f b = Some y.

Lemma own_snoc xs b i (l : list X) : own xs b (Datatypes.S i) l -> exists l' x, l = l' ++ [x] /\ own xs b i l' /\
  exists f, nth_error xs i = Some f /\ nth_error f b = Some x.
Proof.
  intros [Hl Ho]. destruct (@exists_last X l) as (l' & x & ->). { destruct l; [discriminate|congruence]. }
  exists l', x. split; [reflexivity|]. rewrite app_length in Hl. cbn [length] in Hl. split.
  - split; [lia|]. intros t z Ht. apply Ho. rewrite nth_error_app1; [exact Ht|]. apply nth_error_Some. congruence.
  - apply Ho. rewrite nth_error_app2 by lia. replace (i - length l') with 0 by lia. reflexivity.
Qed.

Lemma known_step xs lens h0 init body i s : entrywise_x fh fs body -> length init = length lens ->
  (forall f, In f xs -> length f = length lens) -> length xs = list_max_ lens -> i < list_max_ lens ->
  (forall b n, nth_error lens b = Some n -> exists l, own xs b (min i n) l) ->
  KInv xs lens h0 init i s -> exists s',
  (let '(i, st, ys) := s in
       let* x := match nth_error xs i with Some x => Ok x | None => Err IndexError end in
       let '(y, st') := body x st in
       Ok (i + 1, mask_nested (map (fun n => i <? n) lens) st' st, ys ++ [y])) = Ok s' /\ KInv xs lens h0 init (i + 1) s'.
Proof.
  intros Hb Hin Hf Hx Hi Hown. destruct s as [[i' [h ss]] ys]. intros (-> & Hys & -> & Hss & HI).
  destruct (nth_error xs i) as [x|] eqn:Ex; [|apply nth_error_None in Ex; lia]. cbn [bind].
  assert (length x = length ss) as Hlx by (rewrite Hss; apply Hf; eapply nth_error_In; eauto).
  rewrite (Hb x _ ss Hlx). eexists. split; [reflexivity|]. unfold mask_nested. cbn [fst snd].
  split; [reflexivity|]. split; [rewrite app_length; cbn [length]; lia|]. split; [rewrite Nat.add_1_r; reflexivity|].
  split. { apply where_length; [now rewrite map_length| |exact Hss]. rewrite map_length, combine_length. lia. }
  intros b n s0 l Hn Hs0 Ho.
  assert (exists sb, nth_error ss b = Some sb) as (sb & Hsb).
  { destruct (nth_error ss b) eqn:E; [eauto|]. apply nth_error_None in E. assert (b < length lens) by (apply nth_error_Some; congruence). lia. }
  assert (exists xb, nth_error x b = Some xb) as (xb & Hxb).
  { destruct (nth_error x b) eqn:E; [eauto|]. apply nth_error_None in E. assert (b < length lens) by (apply nth_error_Some; congruence). lia. }
  assert (nth_error (map (fun p => snd (fs (fst p) (Nat.iter i fh h0) (snd p))) (combine x ss)) b = Some (snd (fs xb (Nat.iter i fh h0) sb))) as Hnew.
  { now rewrite nth_map', nth_combine, Hxb, Hsb. }
  rewrite (nth_where _ _ _ b (i <? n) (snd (fs xb (Nat.iter i fh h0) sb)) sb); [|now rewrite nth_map', Hn|exact Hnew|exact Hsb].
  destruct (i <? n) eqn:E.
  - apply Nat.ltb_lt in E. replace (min (i + 1) n) with (Datatypes.S i) in Ho by lia. apply own_snoc in Ho as (l' & xl & -> & Ho' & f & Hf1 & Hf2).
    assert (xl = xb) as -> by congruence. destruct (HI b n s0 l' Hn Hs0) as [I1 I2]; [now replace (min i n) with i by lia|].
    rewrite alone_snoc. destruct Ho' as [Hll _]. rewrite Hll. pose proof (alone_length h0 s0 l') as Hal.
    destruct (alone fh fs h0 s0 l') as [yl s1]. cbn [fst snd] in *. assert (s1 = sb) as -> by congruence.
    destruct (fs xb (Nat.iter i fh h0) sb) as [yb s2] eqn:Efs. cbn [fst snd]. split; [reflexivity|].
    intros t y Ht. destruct (Nat.eq_dec t i) as [->|Hti].
    + rewrite nth_error_app2 in Ht by lia. replace (i - length yl) with 0 in Ht by lia. injection Ht as <-.
      eexists. split; [rewrite nth_error_app2 by lia; rewrite Hys, Nat.sub_diag; reflexivity|].
      rewrite nth_map', nth_combine, Hxb, Hsb. cbn. now rewrite Efs.
    + rewrite nth_error_app1 in Ht. 2: { assert (t < length (yl ++ [yb])) by (apply nth_error_Some; congruence). rewrite app_length in *. cbn [length] in *. lia. }
      destruct (I2 t y Ht) as (g & Hg & Hg'). exists g. split; [|exact Hg']. rewrite nth_error_app1; [exact Hg|]. apply nth_error_Some. congruence.
  - apply Nat.ltb_ge in E. replace (min (i + 1) n) with (min i n) in Ho by lia. destruct (HI b n s0 l Hn Hs0 Ho) as [I1 I2].
    split; [congruence|]. intros t y Ht. destruct (I2 t y Ht) as (g & Hg & Hg'). exists g. split; [|exact Hg'].
    rewrite nth_error_app1; [exact Hg|]. apply nth_error_Some. congruence.
Qed.

Lemma own_exists xs lens b n i : (forall f, In f xs -> length f = length lens) -> length xs = list_max_ lens ->
  nth_error lens b = Some n -> i <= n -> exists l : list X, own xs b i l.
Proof.
  intros Hf Hx Hn. assert (n <= length xs) as Hle by (rewrite Hx; apply max_le; eapply nth_error_In; eauto).
  induction i as [|i IH]; intros Hi; [exists []; split; [reflexivity|intros []; discriminate]|].
  destruct IH as (l & Hl & Ho); [lia|].
  destruct (nth_error xs i) as [f|] eqn:E; [|apply nth_error_None in E; lia].
  assert (b < length f) as Hbf. { rewrite (Hf f) by (eapply nth_error_In; eauto). apply nth_error_Some. congruence. }
  destruct (nth_error f b) as [x|] eqn:E2; [|apply nth_error_None in E2; lia].
  exists (l ++ [x]). split; [rewrite app_length; cbn; lia|]. intros t z Ht. destruct (Nat.eq_dec t i) as [->|Hti].
  - rewrite nth_error_app2 in Ht by lia. replace (i - length l) with 0 in Ht by lia. injection Ht as <-. now exists f.
  - apply Ho. rewrite nth_error_app1 in Ht; [exact Ht|]. assert (t < length (l ++ [x])) by (apply nth_error_Some; congruence). rewrite app_length in *. cbn in *. lia.
Qed.

Lemma scan_known_ok fuel body lens h0 init xs : entrywise_x fh fs body -> length init = length lens ->
  (forall f, In f xs -> length f = length lens) -> length xs = list_max_ lens -> list_max_ lens < fuel ->
  exists ys ss, scan_known fuel body lens (h0, init) xs = Ok (ys, (Nat.iter (list_max_ lens) fh h0, ss)) /\
    length ys = list_max_ lens /\ length ss = length lens /\
    forall b n s0 l, nth_error lens b = Some n -> nth_error init b = Some s0 -> own xs b n l ->
      nth_error ss b = Some (snd (alone fh fs h0 s0 l)) /\
      forall t y, nth_error (fst (alone fh fs h0 s0 l)) t = Some y -> exists f, nth_error ys t = Some f /\ nth_error f b = Some y.
Proof.
  intros Hb Hin Hf Hx Hfu. unfold scan_known.
  destruct (while_run (fun s : nat * (H * list S) * list (list Y) => let '(i, _, _) := s in i <? list_max_ lens)
    (fun s => let '(i, st, ys) := s in
       let* x := match nth_error xs i with Some x => Ok x | None => Err IndexError end in
       let '(y, st') := body x st in
       Ok (i + 1, mask_nested (map (fun n => i <? n) lens) st' st, ys ++ [y]))
    (KInv xs lens h0 init) (list_max_ lens) (0, (h0, init), []) fuel) as (s' & -> & HI).
  - cbn [KInv]. split; [reflexivity|]. split; [reflexivity|]. split; [reflexivity|]. split; [exact Hin|].
    intros b n s0 l Hn Hs0 [Hl _]. cbn in Hl. destruct l; [|discriminate]. cbn [alone fst snd]. split; [exact Hs0|]. intros []; discriminate.
  - intros i s HI Hi. split.
    + destruct s as [[i' [h ss]] ys]. destruct HI as (-> & _). now apply Nat.ltb_lt.
    + apply known_step; auto. intros b n Hn. apply (own_exists xs lens b n); auto. lia.
  - intros [[i' [h ss]] ys] (-> & _). apply Nat.ltb_ge. lia.
  - exact Hfu.
  - cbn [bind]. destruct s' as [[i' [h ss]] ys]. destruct HI as (-> & Hys & -> & Hss & HI). exists ys, ss.
    split; [reflexivity|]. split; [exact Hys|]. split; [exact Hss|]. intros b n s0 l Hn Hs0 Ho. apply (HI b n s0 l Hn Hs0).
    replace (min (list_max_ lens) n) with n; [exact Ho|]. assert (n <= list_max_ lens) by (apply max_le; eapply nth_error_In; eauto). lia.
Qed.
End Known.

Section Cond.
Context {H S Y : Type}.
Variables (fh : H -> H) (fs : H -> S -> Y * S) (gc : H -> S -> bool).

Lemma after_succ h (s : S) k : after fh fs h s (Datatypes.S k) = snd (fs (Nat.iter k fh h) (after fh fs h s k)).
Proof.
  revert h s. induction k as [|k IH]; intros h s; [reflexivity|].
  change (after fh fs h s (Datatypes.S (Datatypes.S k))) with (after fh fs (fh h) (snd (fs h s)) (Datatypes.S k)). rewrite IH.
  change (Nat.iter (Datatypes.S k) fh h) with (fh (Nat.iter k fh h)). rewrite <- iter_r. reflexivity.
Qed.

Lemma while_facts h (s : S) ys sf : while_alone fh fs gc h s ys sf ->
  sf = after fh fs h s (length ys) /\
  (forall t y, nth_error ys t = Some y -> y = fst (fs (Nat.iter t fh h) (after fh fs h s t))) /\
  (forall t, t <= length ys -> gc (Nat.iter t fh h) (after fh fs h s t) = (t <? length ys)).
Proof.
  intros R. induction R as [h s E|h s y s' ys sf E Ef R (I1 & I2 & I3)].
  - cbn [length after]. split; [reflexivity|]. split; [intros []; discriminate|]. intros t Ht. assert (t = 0) as -> by lia. exact E.
  - cbn [length after]. rewrite Ef. cbn [snd]. split; [exact I1|]. split.
    + intros [|t] z Hz; cbn [nth_error] in Hz; [injection Hz as <-; cbn; now rewrite Ef|]. apply I2 in Hz. cbn [after]. rewrite Ef. cbn [snd].
      change (Nat.iter (Datatypes.S t) fh h) with (fh (Nat.iter t fh h)). now rewrite <- iter_r.
    + intros [|t] Ht; [exact E|]. cbn [after]. rewrite Ef. cbn [snd]. change (Nat.iter (Datatypes.S t) fh h) with (fh (Nat.iter t fh h)).
      rewrite <- iter_r. rewrite I3 by lia. reflexivity.
Qed.

Lemma loop_facts before h (s : S) ys sf : loop_alone before fh fs gc h s ys sf ->
  sf = after fh fs h s (length ys) /\
  (forall t y, nth_error ys t = Some y -> y = fst (fs (Nat.iter t fh h) (after fh fs h s t))) /\
  (forall t, (before = true \/ 1 <= t) -> t <= length ys -> gc (Nat.iter t fh h) (after fh fs h s t) = (t <? length ys)) /\
  (before = false -> 1 <= length ys).
Proof.
  destruct before; cbn [loop_alone].
  - intros R. destruct (while_facts _ _ _ _ R) as (I1 & I2 & I3). split; [exact I1|]. split; [exact I2|]. split; [auto|discriminate].
  - intros (y & s' & r & Ef & R & ->). destruct (while_facts _ _ _ _ R) as (I1 & I2 & I3). cbn [length after]. rewrite Ef. cbn [snd].
    split; [exact I1|]. split.
    + intros [|t] z Hz; cbn [nth_error] in Hz; [injection Hz as <-; cbn; now rewrite Ef|]. apply I2 in Hz. cbn [after]. rewrite Ef. cbn [snd].
      change (Nat.iter (Datatypes.S t) fh h) with (fh (Nat.iter t fh h)). now rewrite <- iter_r.
    + split; [|intros _; lia]. intros [|t] [Hx|Hx] Ht; try discriminate; [lia|]. cbn [after]. rewrite Ef. cbn [snd]. change (Nat.iter (Datatypes.S t) fh h) with (fh (Nat.iter t fh h)).
      rewrite <- iter_r. rewrite I3 by lia. reflexivity.
Qed.

(* how often the body has changed the state of an entry with n steps, after i iterations *)
Definition steps (i n : nat) : nat := if n <=? i then n - 1 else i.

Definition CInv h0 (init : list S) (runs : list (list Y * S)) (i : nat)
    (s : nat * list nat * list bool * (H * list S) * list (list Y)) : Prop :=
  let '(i', sl, c, (h, ss), ys) := s in
  i' = i /\ length ys = i /\ h = Nat.iter i fh h0 /\ length sl = length runs /\ length c = length runs /\ length ss = length runs /\
  forall b r s0, nth_error runs b = Some r -> nth_error init b = Some s0 ->
    nth_error sl b = Some (min i (length (fst r))) /\ nth_error c b = Some (i <? length (fst r)) /\
    nth_error ss b = Some (after fh fs h0 s0 (steps i (length (fst r)))) /\
    forall t y, t < i -> nth_error (fst r) t = Some y -> exists f, nth_error ys t = Some f /\ nth_error f b = Some y.

Lemma cond_step before body cond h0 init runs i s : entrywise fh fs body -> entrywise_cond gc cond -> length init = length runs ->
  (forall b r s0, nth_error runs b = Some r -> nth_error init b = Some s0 -> loop_alone before fh fs gc h0 s0 (fst r) (snd r)) ->
  CInv h0 init runs i s -> exists s',
  (let '(i, seq_len, prev_cond, st, ys) := s in
       let seq_len := map (fun p => fst p + if snd p : bool then 1 else 0) (combine seq_len prev_cond) in
       let '(y, st') := body st in
       let ys := ys ++ [y] in
       let c := map (fun p => andb (fst p) (snd p)) (combine (cond st') prev_cond) in
       let st' := mask_nested c st' st in
       Ok (i + 1, seq_len, c, st', ys)) = Ok s' /\ CInv h0 init runs (i + 1) s'.
Proof.
  intros Hb Hc Hin Hruns. destruct s as [[[[i' sl] c] [h ss]] ys]. intros (-> & Hys & -> & Hsl & Hcl & Hss & HI).
  rewrite (Hb _ ss). rewrite (Hc _ _). eexists. split; [reflexivity|]. unfold mask_nested. cbn [fst snd].
  split; [reflexivity|]. split; [rewrite app_length; cbn [length]; lia|]. split; [rewrite Nat.add_1_r; reflexivity|].
  split; [rewrite map_length, combine_length; lia|].
  assert (length (map (fun p => andb (fst p) (snd p)) (combine (map (gc (fh (Nat.iter i fh h0))) (map (fun s => snd (fs (Nat.iter i fh h0) s)) ss)) c)) = length runs) as Hcn
    by (rewrite map_length, combine_length, !map_length; lia).
  split; [exact Hcn|].
  split; [apply where_length; [exact Hcn|rewrite map_length; exact Hss|exact Hss]|].
  intros b r s0 Hr Hs0. destruct (HI b r s0 Hr Hs0) as (I1 & I2 & I3 & I4).
  destruct (loop_facts _ _ _ _ _ (Hruns b r s0 Hr Hs0)) as (F1 & F2 & F3 & F4).
  set (nb := length (fst r)) in *. set (sb := after fh fs h0 s0 (steps i nb)) in *.
  assert (i < nb -> sb = after fh fs h0 s0 i /\ snd (fs (Nat.iter i fh h0) sb) = after fh fs h0 s0 (i + 1)) as Hsb.
  { intros Hi. assert (steps i nb = i) as Es by (unfold steps; replace (nb <=? i) with false by (symmetry; apply Nat.leb_gt; lia); reflexivity).
    assert (sb = after fh fs h0 s0 i) as Eb by (unfold sb; now rewrite Es). split; [exact Eb|]. rewrite Eb, Nat.add_1_r. symmetry. apply after_succ. }
  assert (nth_error (map (fun p => andb (fst p) (snd p)) (combine (map (gc (fh (Nat.iter i fh h0))) (map (fun s => snd (fs (Nat.iter i fh h0) s)) ss)) c)) b = Some (i + 1 <? nb)) as Hcb.
  { rewrite nth_map', nth_combine, !nth_map', I3, I2. cbn [option_map fst snd]. f_equal. destruct (i <? nb) eqn:E; [|apply Nat.ltb_ge in E; rewrite andb_false_r; symmetry; apply Nat.ltb_ge; lia].
    apply Nat.ltb_lt in E. rewrite andb_true_r. destruct (Hsb E) as [_ ->].
    change (fh (Nat.iter i fh h0)) with (Nat.iter (Datatypes.S i) fh h0). rewrite Nat.add_1_r. apply F3; [right; lia|lia]. }
  split; [|split; [exact Hcb|split]].
  - rewrite nth_map', nth_combine, I1, I2. cbn [option_map fst snd]. f_equal. destruct (i <? nb) eqn:E; [apply Nat.ltb_lt in E|apply Nat.ltb_ge in E]; lia.
  - rewrite (nth_where _ _ _ b _ (snd (fs (Nat.iter i fh h0) sb)) sb Hcb); [|now rewrite nth_map', I3|exact I3]. f_equal.
    destruct (i + 1 <? nb) eqn:E.
    + apply Nat.ltb_lt in E. destruct Hsb as [_ ->]; [lia|]. unfold steps. replace (nb <=? i + 1) with false by (symmetry; apply Nat.leb_gt; lia). reflexivity.
    + apply Nat.ltb_ge in E. unfold sb, steps. replace (nb <=? i + 1) with true by (symmetry; apply Nat.leb_le; lia).
      destruct (nb <=? i) eqn:E2; [reflexivity|]. apply Nat.leb_gt in E2. f_equal. lia.
  - intros t y Ht Hy. destruct (Nat.eq_dec t i) as [->|Hti].
    + assert (i < nb) as Hi by (unfold nb; apply nth_error_Some; congruence). destruct (Hsb Hi) as [Eb _].
      eexists. split; [rewrite nth_error_app2 by lia; rewrite Hys, Nat.sub_diag; reflexivity|]. rewrite nth_map', I3. cbn [option_map]. f_equal.
      apply F2 in Hy. rewrite Hy. now rewrite Eb.
    + destruct (I4 t y) as (f & Hf & Hf'); [lia|exact Hy|]. exists f. split; [|exact Hf']. rewrite nth_error_app1; [exact Hf|]. apply nth_error_Some. congruence.
Qed.

Lemma existsb_nth (c : list bool) : existsb (fun b => b) c = true <-> exists b, nth_error c b = Some true.
Proof.
  rewrite existsb_exists. split.
  - intros (x & Hx & ->). now apply In_nth_error in Hx.
  - intros (b & Hb). exists true. split; [eapply nth_error_In; eauto|reflexivity].
Qed.

Lemma scan_cond_ok fuel body cond before limit h0 init runs : entrywise fh fs body -> entrywise_cond gc cond ->
  length init = length runs ->
  (forall b r s0, nth_error runs b = Some r -> nth_error init b = Some s0 -> loop_alone before fh fs gc h0 s0 (fst r) (snd r)) ->
  let N := list_max_ (map (fun r => length (fst r)) runs) in
  let K := match limit with Some m => min N m | None => N end in
  K < fuel ->
  exists ys ss lens, scan_cond fuel body cond (length init) before limit (h0, init) = Ok (ys, (Nat.iter K fh h0, ss), lens) /\
    length ys = K /\ length ss = length runs /\ length lens = length runs /\
    forall b r s0, nth_error runs b = Some r -> nth_error init b = Some s0 ->
      nth_error lens b = Some (min K (length (fst r))) /\
      nth_error ss b = Some (after fh fs h0 s0 (steps K (length (fst r)))) /\
      forall t y, t < K -> nth_error (fst r) t = Some y -> exists f, nth_error ys t = Some f /\ nth_error f b = Some y.
Proof.
  intros Hb Hc Hin Hruns N K Hfu. unfold scan_cond.
  assert (forall i s, CInv h0 init runs i s -> let '(_, _, c, _, _) := s in existsb (fun b => b) c = (i <? N)) as Hex.
  { intros i [[[[i' sl] c] [h ss]] ys] (_ & _ & _ & _ & Hcl & _ & HI).
    destruct (i <? N) eqn:E.
    - apply Nat.ltb_lt in E. apply existsb_nth. destruct (max_is (map (fun r => length (fst r)) runs)) as [_ [HN|[HN _]]]; fold N in HN; [|lia].
      apply in_map_iff in HN as (r & Er & Hr). apply In_nth_error in Hr as (b & Hr). exists b.
      destruct (nth_error init b) as [s0|] eqn:Es; [|apply nth_error_None in Es; assert (b < length runs) by (apply nth_error_Some; congruence); lia].
      destruct (HI b r s0 Hr Es) as (_ & X & _). rewrite X. f_equal. apply Nat.ltb_lt. lia.
    - apply Nat.ltb_ge in E. destruct (existsb (fun b => b) c) eqn:Ec; [|reflexivity]. apply existsb_nth in Ec as (b & Hcb).
      assert (b < length runs) as Hbl by (rewrite <- Hcl; apply nth_error_Some; congruence).
      destruct (nth_error runs b) as [r|] eqn:Er; [|apply nth_error_None in Er; lia].
      destruct (nth_error init b) as [s0|] eqn:Es; [|apply nth_error_None in Es; lia].
      destruct (HI b r s0 Er Es) as (_ & X & _). assert (i < length (fst r)) as Hlt by (apply Nat.ltb_lt; congruence).
      assert (length (fst r) <= N) as Hle by (apply max_le; apply in_map_iff; exists r; split; [reflexivity|eapply nth_error_In; eauto]). lia. }
  edestruct (while_run (fun s : nat * list nat * list bool * (H * list S) * list (list Y) => let '(i, _, c, _, _) := s in
       let c := existsb (fun b => b) c in
       match limit with Some m => c && (i <? m) | None => c end)
    (fun s => let '(i, seq_len, prev_cond, st, ys) := s in
       let seq_len := map (fun p => fst p + if snd p : bool then 1 else 0) (combine seq_len prev_cond) in
       let '(y, st') := body st in
       let ys := ys ++ [y] in
       let c := map (fun p => andb (fst p) (snd p)) (combine (cond st') prev_cond) in
       let st' := mask_nested c st' st in
       Ok (i + 1, seq_len, c, st', ys))
    (CInv h0 init runs) K) as (s' & Es & HI); [| | |exact Hfu|rewrite Es; clear Es].
  4: { cbn [bind]. destruct s' as [[[[i' sl] c] [h ss]] ys]. destruct HI as (-> & Hys & -> & Hsl & Hcl & Hss & HI). exists ys, ss, sl.
    split; [reflexivity|]. split; [exact Hys|]. split; [exact Hss|]. split; [exact Hsl|]. intros b r s0 Hr Hs0. destruct (HI b r s0 Hr Hs0) as (I1 & _ & I3 & I4). auto. }
  - cbn [CInv]. split; [reflexivity|]. split; [reflexivity|]. split; [reflexivity|]. split; [rewrite repeat_length; exact Hin|].
    split; [destruct before; [rewrite (Hc h0 init), map_length; exact Hin|rewrite repeat_length; exact Hin]|]. split; [exact Hin|].
    intros b r s0 Hr Hs0. destruct (loop_facts _ _ _ _ _ (Hruns b r s0 Hr Hs0)) as (F1 & F2 & F3 & F4).
    assert (b < length init) as Hbl by (apply nth_error_Some; congruence).
    split; [rewrite nth_error_repeat by exact Hbl; reflexivity|]. split; [|split].
    + destruct before; [rewrite (Hc h0 init), nth_map', Hs0; cbn [option_map]; f_equal; apply (F3 0); [auto|lia]|].
      rewrite nth_error_repeat by exact Hbl. f_equal. symmetry. apply Nat.ltb_lt. specialize (F4 eq_refl). lia.
    + rewrite Hs0. unfold steps. destruct (length (fst r) <=? 0) eqn:E; [|reflexivity]. apply Nat.leb_le in E. replace (length (fst r) - 1) with 0 by lia. reflexivity.
    + intros t y Ht. lia.
  - intros i s HI Hi. split; [|now apply (cond_step before)]. specialize (Hex i s HI). destruct s as [[[[i' sl] c] [h ss]] ys].
    destruct HI as (-> & _). cbv zeta. rewrite Hex. unfold K in Hi. destruct limit as [m|].
    + apply andb_true_iff. split; apply Nat.ltb_lt; lia.
    + apply Nat.ltb_lt. lia.
  - intros s HI. specialize (Hex K s HI). destruct s as [[[[i' sl] c] [h ss]] ys]. destruct HI as (-> & _). cbv zeta. rewrite Hex. unfold K. destruct limit as [m|].
    + destruct (Nat.min_spec N m) as [[? ->]|[? ->]]; apply andb_false_iff; [left|right]; apply Nat.ltb_ge; lia.
    + apply Nat.ltb_ge. lia.
Qed.
End Cond.

Lemma max_of_mins (l : list nat) K : K <= list_max_ l -> is_max K (map (Nat.min K) l).
Proof.
  intros HK. split.
  - intros x Hx. apply in_map_iff in Hx as (y & <- & _). lia.
  - destruct (max_is l) as [_ [HN|[HN ->]]]; [|right; split; [lia|reflexivity]]. left. apply in_map_iff. exists (list_max_ l). split; [lia|exact HN].
Qed.

Lemma push_spec {A} (st : store A) a x : a < length st ->
  contents (fst (ta_push_back st a x)) (snd (ta_push_back st a x)) = contents st a ++ [x] /\
  (forall b, b <> a -> contents (fst (ta_push_back st a x)) b = contents st b) /\
  length (fst (ta_push_back st a x)) = length st.
Proof.
  unfold ta_push_back, contents. cbn [fst snd]. revert a. induction st as [|l st IH]; intros a Ha; [cbn in Ha; lia|].
  destruct a as [|a]; cbn [firstn skipn app nth].
  - split; [reflexivity|]. split; [intros [|b]; [congruence|reflexivity]|reflexivity].
  - cbn [length] in *. destruct (IH a) as (I1 & I2 & I3); [lia|]. split; [exact I1|]. split; [|cbn [length]; now rewrite I3].
    intros [|b] Hb; [reflexivity|]. apply I2. lia.
Qed.
