(** Proofs about byte pair encoding with merge operations. *)
From Verif Require Import Base PyDict ListLemmas BpeModel BpeSpec.

(** ** strings *)
Lemma seqb_refl s : str_eqb s s = true.
Proof. now apply str_eqb_eq. Qed.
Lemma seqb_neq a b : str_eqb a b = false <-> a <> b.
Proof. rewrite <- str_eqb_eq. destruct (str_eqb a b); split; congruence. Qed.
Lemma str_in_In s l : str_in s l = true <-> In s l.
Proof.
  unfold str_in. rewrite existsb_exists. split.
  - intros (x & H1 & H2). apply str_eqb_eq in H2. now subst.
  - intros H. exists s. split; [exact H|apply seqb_refl].
Qed.
Lemma starts_with_app p s : starts_with p (p ++ s) = true.
Proof. induction p as [|x p IH]; cbn; [reflexivity|]. now rewrite Nat.eqb_refl, IH. Qed.
Lemma starts_with_inv p s : starts_with p s = true -> exists r, s = p ++ r.
Proof.
  revert s. induction p as [|x p IH]; intros s H; [exists s; reflexivity|].
  destruct s as [|y s]; [discriminate|]. cbn in H. apply andb_true_iff in H. destruct H as [H1 H2].
  apply Nat.eqb_eq in H1. destruct (IH s H2) as (r & ->). exists r. subst. reflexivity.
Qed.
Lemma ends_with_app p s : ends_with p (s ++ p) = true.
Proof. unfold ends_with. rewrite rev_app_distr. apply starts_with_app. Qed.
Lemma ends_with_inv p s : ends_with p s = true -> exists r, s = r ++ p.
Proof.
  unfold ends_with. intros H. apply starts_with_inv in H. destruct H as (r & H).
  exists (rev r). apply (f_equal (@rev nat)) in H. rewrite rev_involutive, rev_app_distr, rev_involutive in H. exact H.
Qed.

(** ** ranks *)
Fixpoint first_idx (k : nat) (lines : list (list str)) (p : list str) : option nat :=
  match lines with
  | [] => None
  | x :: r => if strs_eqb x p then Some k else first_idx (S k) r p
  end.
Lemma fold_left_rev {A B} (f : B -> A -> B) l d : fold_left f (rev l) d = fold_right (fun x d => f d x) d l.
Proof. now rewrite fold_left_rev_right || (rewrite <- fold_left_rev_right, rev_involutive; reflexivity). Qed.
Lemma load_codes_get lines p : dget (load_codes lines) p = first_idx 0 lines p.
Proof.
  unfold load_codes. rewrite fold_left_rev. generalize 0 as k. induction lines as [|x r IH]; intros k; [reflexivity|].
  cbn [enumerate_from fold_right fst snd first_idx]. rewrite dget_dset. change (@keqb (list str) _ x p) with (strs_eqb x p).
  destruct (strs_eqb x p); [reflexivity|apply IH].
Qed.
Lemma strs_eqb_neq a b : strs_eqb a b = false <-> a <> b.
Proof. rewrite <- strs_eqb_eq. destruct (strs_eqb a b); split; congruence. Qed.
Lemma first_idx_Some k lines p i :
  first_idx k lines p = Some i ->
  exists l r, lines = l ++ p :: r /\ ~ In p l /\ i = k + length l.
Proof.
  revert k. induction lines as [|x r IH]; intros k H; cbn in H; [discriminate|].
  destruct (strs_eqb x p) eqn:E.
  - apply strs_eqb_eq in E. subst x. injection H as <-. exists [], r. cbn. repeat split; auto with arith.
  - apply strs_eqb_neq in E. destruct (IH (S k) H) as (l & r' & -> & H2 & H3).
    exists (x :: l), r'. cbn. split; [reflexivity|]. split; [intros [H4|H4]; auto|lia].
Qed.
Lemma first_idx_None k lines p : first_idx k lines p = None -> ~ In p lines.
Proof.
  revert k. induction lines as [|x r IH]; intros k H; cbn in *; [tauto|].
  destruct (strs_eqb x p) eqn:E; [discriminate|]. apply strs_eqb_neq in E.
  intros [H1|H1]; [auto|]. exact (IH _ H H1).
Qed.
Lemma first_idx_In lines p k : In p lines -> exists i, first_idx k lines p = Some i.
Proof. intros H. destruct (first_idx k lines p) eqn:E; [eauto|]. apply first_idx_None in E. tauto. Qed.
Lemma first_idx_le lines p q i j :
  first_idx 0 lines p = Some i -> first_idx 0 lines q = Some j -> i <= j -> not_after lines p q.
Proof.
  intros Hp Hq Hle. apply first_idx_Some in Hp. destruct Hp as (l & r & H1 & H2 & H3).
  exists l, r. split; [exact H1|]. split; [exact H2|]. intros Hin.
  apply first_idx_Some in Hq. destruct Hq as (l' & r' & H4 & H5 & H6). cbn in *. subst i j.
  apply H5. apply In_nth_error in Hin. destruct Hin as (n & Hn).
  assert (Hn' : n < length l) by (apply nth_error_Some; congruence).
  assert (E : nth_error lines n = Some q) by (rewrite H1, nth_error_app1; assumption).
  rewrite H4 in E. rewrite nth_error_app1 in E by lia. now apply nth_error_In in E.
Qed.

Lemma load_codes_keys lines p : In p (dkeys (load_codes lines)) <-> In p lines.
Proof.
  rewrite <- dget_keys, load_codes_get. split; intros H.
  - destruct (first_idx 0 lines p) eqn:E; [|congruence]. apply first_idx_Some in E.
    destruct E as (l & r & -> & _ & _). apply in_elt.
  - destruct (first_idx_In _ _ 0 H) as (i & ->). discriminate.
Qed.

Lemma load_reverse_spec items d :
  Forall (fun it => exists a b, fst it = [a; b]) items ->
  exists rv, load_reverse_from items d = Ok rv /\
    (forall s e, dget rv s = Some e ->
       dget d s = Some e \/ exists a b, e = [a; b] /\ a ++ b = s /\ In e (map fst items)) /\
    (forall s, dget d s <> None -> dget rv s <> None) /\
    (forall a b, In [a; b] (map fst items) -> dget rv (a ++ b) <> None).
Proof.
  revert d. induction items as [|(p, n) items IH]; intros d H.
  - exists d. cbn. split; [reflexivity|]. split; [auto|]. split; [auto|]. intros a b [].
  - inversion H as [|? ? H1 H2]; subst. destruct H1 as (a & b & E). cbn in E. subst p. cbn [load_reverse_from].
    destruct (IH (dset d (a ++ b) [a; b]) H2) as (rv & H3 & H4 & H5 & H6).
    exists rv. split; [exact H3|]. split; [|split].
    + intros s e Hs. destruct (H4 s e Hs) as [Hd|(a' & b' & -> & <- & Hi)].
      * rewrite dget_dset in Hd. destruct (keqb _ _) eqn:Ek; [|left; exact Hd].
        apply keqb_eq in Ek. injection Hd as <-. right. exists a, b. cbn. auto.
      * right. exists a', b'. cbn. auto.
    + intros s Hs. apply H5. rewrite dget_dset. destruct (keqb _ _); [discriminate|exact Hs].
    + intros a' b' [Hi|Hi]; [|now apply H6]. cbn in Hi. injection Hi as <- <-.
      apply H5. rewrite dget_dset_eq. discriminate.
Qed.

Lemma load_encoder_spec v lines labels :
  merge_lines lines ->
  exists e, load_encoder v lines labels = Ok e /\ e_version e = v /\ e_labels e = labels /\
    e_codes e = load_codes lines /\
    (forall s x, dget (e_reverse e) s = Some x ->
       exists a b, x = [a; b] /\ a ++ b = s /\ In [a; b] lines /\ a <> [] /\ b <> []) /\
    (forall s, dget (e_reverse e) s = None -> forall a b, In [a; b] lines -> a ++ b <> s).
Proof.
  intros Hm. unfold load_encoder, load_reverse.
  assert (H : Forall (fun it => exists a b, fst it = [a; b]) (load_codes lines)).
  { apply Forall_forall. intros (p, n) Hin. cbn.
    assert (Hi : In p lines) by (apply load_codes_keys; apply in_map_iff; exists (p, n); auto).
    unfold merge_lines in Hm. rewrite Forall_forall in Hm. destruct (Hm p Hi) as (a & b & -> & _). eauto. }
  destruct (load_reverse_spec _ [] H) as (rv & H1 & H2 & _ & H4). rewrite H1. cbn [bind].
  eexists. split; [reflexivity|]. cbn. do 3 (split; [reflexivity|]). split.
  - intros s x Hx. destruct (H2 s x Hx) as [Hd|(a & b & -> & <- & Hi)]; [discriminate|].
    apply (proj1 (load_codes_keys lines _)) in Hi. exists a, b. split; [reflexivity|]. split; [reflexivity|]. split; [exact Hi|].
    unfold merge_lines in Hm. rewrite Forall_forall in Hm. destruct (Hm _ Hi) as (a' & b' & E & Ha & Hb).
    injection E as <- <-. auto.
  - intros s Hs a b Hi E. subst s. apply (proj2 (load_codes_keys lines _)) in Hi. exact (H4 a b Hi Hs).
Qed.

(** ** the best pair *)
Lemma get_pairs_adjacent w p : In p (get_pairs w) <-> exists a b, p = [a; b] /\ adjacent w a b.
Proof.
  induction w as [|x w IH].
  - cbn. split; [tauto|]. intros (a & b & _ & l & r & H). destruct l; discriminate.
  - destruct w as [|y r].
    + cbn. split; [tauto|]. intros (a & b & _ & l & r & H). destruct l as [|? l]; [discriminate|].
      destruct l; discriminate.
    + change (get_pairs (x :: y :: r)) with ([x; y] :: get_pairs (y :: r)). cbn [In]. rewrite IH. split.
      * intros [<-|(a & b & -> & l & r' & H)].
        { exists x, y. split; [reflexivity|]. exists [], r. reflexivity. }
        exists a, b. split; [reflexivity|]. exists (x :: l), r'. cbn. now rewrite <- H.
      * intros (a & b & -> & l & r' & H). destruct l as [|x' l].
        { left. cbn in H. injection H as -> -> _. reflexivity. }
        right. exists a, b. split; [reflexivity|]. exists l, r'. cbn in H. now injection H.
Qed.

Lemma min_pair_spec codes pairs :
  pairs <> [] ->
  exists q, min_pair codes pairs = Some q /\ In q pairs /\
    forall p i, In p pairs -> dget codes p = Some i -> exists j, dget codes q = Some j /\ j <= i.
Proof.
  induction pairs as [|p ps IH]; [congruence|]. intros _. cbn [min_pair].
  destruct ps as [|p2 ps].
  - cbn. exists p. split; [reflexivity|]. split; [now left|]. intros p' i [<-|[]] H. eauto.
  - destruct IH as (q & Hq & Hin & Hle); [discriminate|]. rewrite Hq.
    assert (K : forall x, (x = p \/ x = q) ->
       (forall i, dget codes p = Some i -> exists j, dget codes x = Some j /\ j <= i) ->
       (forall i, dget codes q = Some i -> exists j, dget codes x = Some j /\ j <= i) ->
       In x (p :: p2 :: ps) /\
       forall p' i, In p' (p :: p2 :: ps) -> dget codes p' = Some i -> exists j, dget codes x = Some j /\ j <= i).
    { intros x Hx K1 K2. split; [destruct Hx as [-> | ->]; [now left|now right]|].
      intros p' i [<-|Hp'] Hi; [now apply K1|]. destruct (Hle p' i Hp' Hi) as (j & Hj & Hji).
      destruct (K2 j Hj) as (j' & Hj' & Hjj). exists j'. split; [exact Hj'|lia]. }
    destruct (dget codes p) as [i|] eqn:Ep, (dget codes q) as [j|] eqn:Eq.
    + destruct (Nat.leb_spec i j).
      * exists p. split; [reflexivity|]. apply K; [now left|rewrite Ep; eauto|].
        intros k [= <-]. rewrite Ep. eauto.
      * exists q. split; [reflexivity|]. apply K; [now right| |rewrite Eq; eauto].
        intros k [= <-]. rewrite Eq. exists j. split; [reflexivity|lia].
    + exists p. split; [reflexivity|]. apply K; [now left|rewrite Ep; eauto|congruence].
    + exists q. split; [reflexivity|]. apply K; [now right|congruence|rewrite Eq; eauto].
    + exists p. split; [reflexivity|]. apply K; [now left|congruence|congruence].
Qed.

(** ** merging one pair *)
Lemma merge_pair_2 a b x y r :
  merge_pair a b (x :: y :: r) =
  if str_eqb x a && str_eqb y b then (a ++ b) :: merge_pair a b r else x :: merge_pair a b (y :: r).
Proof. reflexivity. Qed.
Lemma merge_pair_cons a b x t : x <> a -> merge_pair a b (x :: t) = x :: merge_pair a b t.
Proof.
  intros H. destruct t as [|y r]; [reflexivity|]. rewrite merge_pair_2.
  apply seqb_neq in H. rewrite H. reflexivity.
Qed.
Lemma merge_pair_skip a b l t : ~ In a l -> merge_pair a b (l ++ t) = l ++ merge_pair a b t.
Proof.
  induction l as [|x l IH]; intros H; [reflexivity|]. cbn [app].
  rewrite merge_pair_cons, IH; [reflexivity| |].
  - intros Hi. apply H. now right.
  - intros ->. apply H. now left.
Qed.
Lemma merge_pair_none a b l : ~ In a l -> merge_pair a b l = l.
Proof. intros H. rewrite <- (app_nil_r l) at 1. rewrite merge_pair_skip by exact H. now rewrite app_nil_r. Qed.

Lemma index_from_Some l x i j :
  index_from l x i = Some j ->
  exists m r, skipn i l = m ++ x :: r /\ ~ In x m /\ j = i + length m.
Proof.
  revert i j. induction l as [|y l IH]; intros i j H; [destruct i; discriminate|].
  destruct i as [|i]; cbn [index_from] in H.
  - destruct (str_eqb y x) eqn:E.
    + injection H as <-. apply str_eqb_eq in E. subst y. exists [], l. cbn. auto.
    + destruct (index_from l x 0) as [k|] eqn:Ek; [|discriminate]. injection H as <-.
      destruct (IH 0 k Ek) as (m & r & H1 & H2 & H3). cbn in H1. exists (y :: m), r. cbn.
      split; [now rewrite H1|]. split; [|lia]. apply seqb_neq in E. intros [H4|H4]; auto.
  - destruct (index_from l x i) as [k|] eqn:Ek; [|discriminate]. injection H as <-.
    destruct (IH i k Ek) as (m & r & H1 & H2 & H3). exists m, r. cbn. split; [exact H1|]. split; [exact H2|lia].
Qed.
Lemma index_from_None l x i : index_from l x i = None -> ~ In x (skipn i l).
Proof.
  revert i. induction l as [|y l IH]; intros i H; [destruct i; cbn; tauto|].
  destruct i as [|i]; cbn [index_from] in H.
  - destruct (str_eqb y x) eqn:E; [discriminate|]. apply seqb_neq in E.
    destruct (index_from l x 0) eqn:Ek; [discriminate|]. intros [H1|H1]; [auto|]. exact (IH 0 Ek H1).
  - destruct (index_from l x i) eqn:Ek; [discriminate|]. cbn. now apply IH.
Qed.

Lemma skipn_mid {A} i (w m : list A) x r :
  skipn i w = m ++ x :: r -> length w = i + length m + S (length r) /\
  nth_error w (i + length m) = Some x /\ skipn (i + length m) w = x :: r /\ pyslice w i (i + length m) = m.
Proof.
  intros H.
  assert (Hi : i < length w).
  { destruct (Nat.lt_ge_cases i (length w)); auto. rewrite skipn_all2 in H by lia. destruct m; discriminate. }
  assert (Hs : skipn (i + length m) w = x :: r).
  { rewrite (Nat.add_comm i), <- skipn_skipn', H. rewrite skipn_app, skipn_all, Nat.sub_diag. reflexivity. }
  split; [|split; [|split]].
  - assert (E : length (skipn i w) = length (m ++ x :: r)) by now rewrite H.
    rewrite skipn_length, app_length in E. cbn in E. lia.
  - rewrite <- (Nat.add_0_r (i + length m)). rewrite <- nth_error_skipn', Hs. reflexivity.
  - exact Hs.
  - unfold pyslice. rewrite H. replace (i + length m - i) with (length m) by lia.
    rewrite firstn_app, Nat.sub_diag, firstn_all. cbn. now rewrite app_nil_r.
Qed.

Lemma merge_loop_spec fuel w a b : forall i new,
  length w - i < fuel -> merge_loop fuel w a b i new = Ok (new ++ merge_pair a b (skipn i w)).
Proof.
  induction fuel as [|fuel IH]; intros i new Hf; [lia|]. cbn [merge_loop].
  destruct (Nat.ltb_spec i (length w)) as [Hi|Hi].
  2: { rewrite skipn_all2 by lia. cbn. now rewrite app_nil_r. }
  destruct (index_from w a i) as [j|] eqn:E.
  2: { apply index_from_None in E. now rewrite merge_pair_none. }
  apply index_from_Some in E. destruct E as (m & r & H1 & H2 & ->).
  destruct (skipn_mid _ _ _ _ _ H1) as (L & N & S1 & P). rewrite P, H1, merge_pair_skip by exact H2.
  assert (N1 : nth (i + length m) w [] = a) by (apply nth_error_nth; exact N). rewrite N1, seqb_refl. cbn [andb].
  destruct r as [|y r].
  - cbn in L. destruct (Nat.ltb_spec (i + length m) (length w - 1)); [lia|]. cbn [andb].
    rewrite IH by lia. f_equal. rewrite <- !app_assoc. f_equal. cbn.
    rewrite skipn_all2 by lia. reflexivity.
  - cbn in L. destruct (Nat.ltb_spec (i + length m) (length w - 1)); [|lia]. cbn [andb].
    assert (N2 : nth (i + length m + 1) w [] = y).
    { apply nth_error_nth. rewrite <- nth_error_skipn', S1. reflexivity. }
    assert (S2 : skipn (i + length m + 1) w = y :: r).
    { replace (i + length m + 1) with (1 + (i + length m)) by lia. rewrite <- skipn_skipn', S1. reflexivity. }
    rewrite N2. rewrite merge_pair_2. rewrite seqb_refl. cbn [andb].
    destruct (str_eqb y b) eqn:Ey.
    + rewrite IH by lia. f_equal. rewrite <- !app_assoc. f_equal. cbn [app]. f_equal. f_equal.
      replace (i + length m + 2) with (2 + (i + length m)) by lia. rewrite <- skipn_skipn', S1. reflexivity.
    + rewrite IH by lia. f_equal. rewrite <- !app_assoc. f_equal. cbn [app]. f_equal. now rewrite S2.
Qed.

Lemma merge_pair_len a b w : length (merge_pair a b w) <= length w.
Proof.
  assert (G : forall n (l : list str), length l <= n -> length (merge_pair a b l) <= length l).
  { induction n as [|n IH]; intros l Hl; [destruct l; [cbn; lia|cbn in Hl; lia]|].
    destruct l as [|x [|y r]]; [cbn; lia|cbn; lia|]. rewrite merge_pair_2.
    destruct (str_eqb x a && str_eqb y b).
    - cbn in Hl. assert (IHr : length (merge_pair a b r) <= length r) by (apply IH; lia). cbn [length]. lia.
    - assert (IHr : length (merge_pair a b (y :: r)) <= length (y :: r)) by (apply IH; cbn in *; lia).
      cbn [length] in *. lia. }
  exact (G (length w) w (le_n _)).
Qed.
Lemma merge_pair_shorter a b l : forall r, length (merge_pair a b (l ++ a :: b :: r)) < length (l ++ a :: b :: r).
Proof.
  intros r.
  assert (G : forall n (l : list str), length l <= n ->
    length (merge_pair a b (l ++ a :: b :: r)) < length (l ++ a :: b :: r)).
  { induction n as [|n IH]; intros l0 Hl.
    - destruct l0; [|cbn in Hl; lia]. cbn [app]; rewrite !merge_pair_2. rewrite !seqb_refl. cbn.
      pose proof (merge_pair_len a b r). lia.
    - destruct l0 as [|x [|y l0]].
      + cbn [app]; rewrite !merge_pair_2. rewrite !seqb_refl. cbn. pose proof (merge_pair_len a b r). lia.
      + cbn [app]; rewrite !merge_pair_2. destruct (str_eqb x a && str_eqb a b).
        * pose proof (merge_pair_len a b (b :: r)). cbn in *. lia.
        * rewrite !seqb_refl. cbn [andb length]. pose proof (merge_pair_len a b r). lia.
      + cbn [app]; rewrite !merge_pair_2. destruct (str_eqb x a && str_eqb y b).
        * assert (K := IH l0 ltac:(cbn in Hl; lia)). cbn [length] in *. lia.
        * assert (K := IH (y :: l0) ltac:(cbn in *; lia)). cbn [app length] in *. lia. }
  exact (G (length l) l (le_n _)).
Qed.
Lemma merge_pair_nonnil a b w : w <> [] -> merge_pair a b w <> [].
Proof. destruct w as [|x [|y r]]; cbn; [congruence|congruence|]. intros _. destruct (str_eqb x a && str_eqb y b); discriminate. Qed.

(** a property of a word that survives a merge *)
Lemma merge_pair_ind_len a b (P : list str -> list str -> Prop) :
  P [] [] -> (forall x, P [x] [x]) ->
  (forall r, P r (merge_pair a b r) -> P (a :: b :: r) ((a ++ b) :: merge_pair a b r)) ->
  (forall x y r, P (y :: r) (merge_pair a b (y :: r)) -> P (x :: y :: r) (x :: merge_pair a b (y :: r))) ->
  forall w, P w (merge_pair a b w).
Proof.
  intros P0 P1 P2 P3 w.
  assert (G : forall n (l : list str), length l <= n -> P l (merge_pair a b l)).
  { induction n as [|n IH]; intros l Hl.
    - destruct l; [exact P0|cbn in Hl; lia].
    - destruct l as [|x [|y r]]; [exact P0|apply P1|]. rewrite merge_pair_2.
      destruct (str_eqb x a) eqn:E1, (str_eqb y b) eqn:E2; cbn [andb];
        try (apply P3; apply IH; cbn in *; lia).
      apply str_eqb_eq in E1, E2. subst. apply P2. apply IH. cbn in *. lia. }
  exact (G (length w) w (le_n _)).
Qed.
Lemma merge_pair_concat a b w : concat (merge_pair a b w) = concat w.
Proof.
  apply (merge_pair_ind_len a b (fun w w' => concat w' = concat w)); cbn; auto.
  - intros r H. rewrite H. now rewrite app_assoc.
  - intros x y r H. now rewrite H.
Qed.
Lemma merge_pair_forall a b w :
  Forall (fun s : str => s <> []) w -> Forall (fun s : str => s <> []) (merge_pair a b w).
Proof.
  apply (merge_pair_ind_len a b (fun w w' => Forall (fun s : str => s <> []) w -> Forall (fun s : str => s <> []) w'));
    auto.
  - intros r H1 H2. inversion H2 as [|? ? Ha Hr]; subst. inversion Hr as [|? ? Hb Hr']; subst.
    constructor; [|auto]. destruct a; [congruence|discriminate].
  - intros x y r H1 H2. inversion H2; subst. constructor; auto.
Qed.
(** the last symbol keeps its end *)
Definition last_ends (e : str) (w : list str) : Prop := exists i x, w = i ++ [x ++ e].
Lemma last_ends_cons e x y r : last_ends e (x :: y :: r) <-> last_ends e (y :: r).
Proof.
  split; intros (i & z & H).
  - destruct i as [|i0 i]; [discriminate|]. cbn in H. injection H as _ H. exists i, z. exact H.
  - exists (x :: i), z. cbn. now rewrite H.
Qed.
Lemma merge_pair_last e a b w : last_ends e w -> last_ends e (merge_pair a b w).
Proof.
  apply (merge_pair_ind_len a b (fun w w' => last_ends e w -> last_ends e w')); auto.
  - intros r H1 H2. destruct r as [|z r].
    + cbn. destruct H2 as (i & x & H). destruct i as [|i0 [|i1 i]]; try discriminate.
      * cbn in H. injection H as -> ->. exists [], (i0 ++ x). cbn. now rewrite app_assoc.
      * cbn in H. injection H as _ _ H. destruct i; discriminate.
    + rewrite !last_ends_cons in H2. specialize (H1 H2).
      destruct H1 as (i & x & H). exists ((a ++ b) :: i), x. cbn [app]. now rewrite H.
  - intros x y r H1 H2. rewrite last_ends_cons in H2. specialize (H1 H2).
    destruct H1 as (i & z & H). exists (x :: i), z. cbn [app]. now rewrite H.
Qed.

(** ** all merges *)
Lemma merged_inv lines w w' :
  merged lines w w' ->
  concat w' = concat w /\ (w <> [] -> w' <> []) /\
  (Forall (fun s : str => s <> []) w -> Forall (fun s : str => s <> []) w') /\
  (forall e, last_ends e w -> last_ends e w').
Proof.
  induction 1 as [w H|w a b w' H1 H2 H3 H4 IH]; [auto|].
  destruct IH as (I1 & I2 & I3 & I4). split; [|split; [|split]].
  - now rewrite I1, merge_pair_concat.
  - intros Hw. apply I2. now apply merge_pair_nonnil.
  - intros Hw. apply I3. now apply merge_pair_forall.
  - intros e He. apply I4. now apply merge_pair_last.
Qed.

Lemma bpe_loop_spec lines fuel : forall w,
  length w <= fuel -> 2 <= length w ->
  exists w', bpe_loop fuel (load_codes lines) w (get_pairs w) = Ok w' /\ merged lines w w'.
Proof.
  induction fuel as [|fuel IH]; intros w Hf Hw; [lia|]. cbn [bpe_loop].
  assert (Hp : get_pairs w <> []) by (destruct w as [|x [|y r]]; cbn in *; [lia|lia|discriminate]).
  destruct (min_pair_spec (load_codes lines) _ Hp) as (q & Hq & Hin & Hle). rewrite Hq.
  assert (Hrank : forall p, dget (load_codes lines) p = None -> ~ In p lines).
  { intros p. rewrite load_codes_get. apply first_idx_None. }
  destruct (dget (load_codes lines) q) as [k|] eqn:Ek.
  - apply get_pairs_adjacent in Hin. destruct Hin as (a & b & -> & Hadj).
    assert (Hq' : first_idx 0 lines [a; b] = Some k) by (rewrite <- load_codes_get; exact Ek).
    rewrite (merge_loop_spec (S (length w)) w a b 0 []) by lia. cbn [app skipn bind].
    assert (Hin2 : In [a; b] lines).
    { apply first_idx_Some in Hq'. destruct Hq' as (l & r & -> & _). apply in_elt. }
    assert (Hbest : forall a' b', adjacent w a' b' -> In [a'; b'] lines -> not_after lines [a; b] [a'; b']).
    { intros a' b' Ha' Hb'. destruct (first_idx_In _ _ 0 Hb') as (i & Hi).
      destruct (Hle [a'; b'] i) as (j & Hj & Hji).
      - apply get_pairs_adjacent. eauto.
      - rewrite load_codes_get. exact Hi.
      - injection Hj as <-. exact (first_idx_le _ _ _ _ _ Hq' Hi Hji). }
    assert (Hlt : length (merge_pair a b w) < length w).
    { destruct Hadj as (l & r & ->). apply merge_pair_shorter. }
    assert (Hne : merge_pair a b w <> []) by (apply merge_pair_nonnil; intros ->; cbn in Hw; lia).
    destruct (Nat.eqb_spec (length (merge_pair a b w)) 1) as [E|E].
    + eexists. split; [reflexivity|]. apply (merged_step _ _ a b); auto. apply merged_done.
      intros a' b' (l & r & H). rewrite H, app_length in E. cbn in E. lia.
    + destruct (IH (merge_pair a b w)) as (w' & H1 & H2).
      * lia.
      * destruct (merge_pair a b w) as [|? [|? ?]]; cbn in *; [congruence|lia|lia].
      * exists w'. split; [exact H1|]. now apply (merged_step _ _ a b).
  - exists w. split; [reflexivity|]. apply merged_done. intros a b Hadj Hin2.
    destruct (first_idx_In _ _ 0 Hin2) as (i & Hi).
    destruct (Hle [a; b] i) as (j & Hj & _); [apply get_pairs_adjacent; eauto|now rewrite load_codes_get|congruence].
Qed.

(** ** the end-of-word mark *)
Lemma app_eow_inj x y : x ++ eow = y ++ eow -> x = y.
Proof. apply app_inv_tail. Qed.

Lemma starts_eow_mid x y : x <> [] -> starts_with eow (x ++ eow ++ y) = true -> exists r, x = eow ++ r.
Proof.
  intros Hx H. apply starts_with_inv in H. destruct H as (r & H). unfold eow in *.
  destruct x as [|x0 [|x1 [|x2 [|x3 x]]]]; cbn in H; try discriminate; [congruence|].
  injection H as -> -> -> -> _. exists x. reflexivity.
Qed.
Lemma remove_eow_ok x : ~ contains eow x -> remove_eow (x ++ eow) = x.
Proof.
  unfold remove_eow. intros H. assert (Hf : length (x ++ eow) <= length (x ++ eow)) by lia. revert Hf.
  generalize (length (x ++ eow)) at 2 3 as fuel. intros fuel. revert fuel. induction x as [|c x IH]; intros fuel Hf.
  - cbn in Hf. do 5 (destruct fuel as [|fuel]; [try lia|]); reflexivity.
  - rewrite app_length in Hf. cbn [length] in Hf. destruct fuel as [|fuel]; [lia|].
    cbn [app remove_eow_]. change (c :: x ++ eow) with ((c :: x) ++ eow).
    destruct (starts_with eow ((c :: x) ++ eow)) eqn:E.
    + exfalso. rewrite <- (app_nil_r eow) in E at 2. apply starts_eow_mid in E; [|discriminate].
      destruct E as (r & E). apply H. exists [], r. exact E.
    + f_equal. apply IH.
      * intros (l & r & E2). apply H. exists (c :: l), r. cbn. now rewrite E2.
      * rewrite app_length. lia.
Qed.

Lemma strip_eow_spec i x :
  ~ contains eow x ->
  strip_eow (i ++ [x ++ eow]) = match x with [] => i | _ => i ++ [x] end.
Proof.
  intros H. unfold strip_eow. rewrite last_last, removelast_last.
  destruct x as [|c x].
  - cbn [app]. now rewrite seqb_refl.
  - destruct (str_eqb ((c :: x) ++ eow) eow) eqn:E.
    + apply str_eqb_eq in E. apply (f_equal (@length nat)) in E. rewrite app_length in E. cbn in E. lia.
    + rewrite ends_with_app, remove_eow_ok by exact H. reflexivity.
Qed.

Lemma concat_sing s : concat (map sing s) = s.
Proof. induction s as [|c s IH]; cbn; [reflexivity|]. now rewrite IH. Qed.

Lemma start_word_spec v word :
  v <> VOther -> word <> [] ->
  exists w, start_word v word = Ok w /\ marked_chars v word w /\ concat w = word ++ eow /\
    last_ends eow w /\ Forall (fun s : str => s <> []) w /\
    (get_pairs w = [] -> v = V02 /\ length word = 1) /\ (get_pairs w <> [] -> 2 <= length w).
Proof.
  intros Hv Hw. destruct v; [| |congruence].
  - eexists. split; [reflexivity|]. split; [reflexivity|]. split; [|split; [|split; [|split]]].
    + rewrite concat_app, concat_sing. cbn. reflexivity.
    + exists (map sing word), []. reflexivity.
    + apply Forall_app. split; [|constructor; [discriminate|constructor]].
      apply Forall_forall. intros s Hs. apply in_map_iff in Hs. destruct Hs as (c & <- & _). discriminate.
    + destruct word as [|c [|c2 r]]; [congruence| |]; cbn; discriminate.
    + intros _. rewrite app_length, map_length. cbn. destruct word; [congruence|cbn; lia].
  - destruct (exists_last Hw) as (i & c & ->).
    exists (map sing i ++ [[c] ++ eow]). split.
    { unfold start_word. rewrite removelast_last, last_last. destruct i; reflexivity. }
    split; [exists i, c; auto|]. split; [|split; [|split; [|split]]].
    + rewrite concat_app, concat_sing. cbn. now rewrite <- app_assoc.
    + exists (map sing i), [c]. reflexivity.
    + apply Forall_app. split; [|constructor; [discriminate|constructor]].
      apply Forall_forall. intros s Hs. apply in_map_iff in Hs. destruct Hs as (c' & <- & _). discriminate.
    + destruct i as [|c1 [|c2 i]]; [auto| |]; cbn; discriminate.
    + intros H. destruct i as [|c1 i]; [cbn in H; congruence|]. cbn [map app length]. rewrite app_length. cbn. lia.
Qed.

(** the symbols before the vocabulary check *)
Lemma encode_merged e v lines word :
  e_version e = v -> v <> VOther -> e_codes e = load_codes lines -> word <> [] -> ~ contains eow word ->
  exists w w' out, marked_chars v word w /\ merged lines w w' /\ unmarked w' out /\ concat out = word /\ out <> [] /\
    Forall (fun s : str => s <> []) out /\
    (encode_word e word =
       match get_pairs w with
       | [] => Ok out
       | _ => match e_labels e with
              | None | Some [] => Ok out
              | Some vocab => check_vocab_and_split (e_reverse e) vocab at_at out
              end
       end) /\ (get_pairs w = [] -> length word = 1).
Proof.
  intros Hver Hv Hcodes Hw Hc. unfold encode_word. rewrite Hver, Hcodes.
  destruct (start_word_spec v word Hv Hw) as (w & Hst & Hm & Hcat & Hlast & Hne & Hp1 & Hp2).
  rewrite Hst. cbn [bind].
  assert (K : forall w', merged lines w w' -> exists out, unmarked w' out /\ concat out = word /\ out <> [] /\
      Forall (fun s : str => s <> []) out /\ strip_eow w' = out).
  { intros w' Hmg. destruct (merged_inv _ _ _ Hmg) as (I1 & _ & I3 & I4).
    destruct (I4 _ Hlast) as (i & x & ->). specialize (I3 Hne). apply Forall_app in I3. destruct I3 as [I3 _].
    rewrite concat_app in I1. cbn in I1. rewrite app_nil_r, Hcat, app_assoc in I1. apply app_eow_inj in I1.
    assert (Hx : ~ contains eow x).
    { intros (l & r & E). apply Hc. exists (concat i ++ l), r. rewrite <- I1, E. now rewrite <- app_assoc. }
    pose proof (strip_eow_spec i x Hx) as Hs. destruct x as [|c x].
    - exists i. rewrite app_nil_r in I1. split; [left; reflexivity|]. split; [exact I1|].
      split; [intros ->; cbn in I1; congruence|]. split; [exact I3|exact Hs].
    - exists (i ++ [c :: x]). split; [right; exists i, (c :: x); split; [discriminate|]; auto|].
      split; [rewrite concat_app; cbn [concat]; rewrite app_nil_r; exact I1|].
      split; [destruct i; discriminate|]. split; [|exact Hs].
      apply Forall_app. split; [exact I3|]. constructor; [discriminate|constructor]. }
  destruct (get_pairs w) as [|p ps] eqn:Ep.
  - destruct (Hp1 eq_refl) as [-> Hl]. destruct word as [|c [|? ?]]; try discriminate.
    destruct Hm as (i & c' & E1 & E2). destruct i as [|? i]; [|destruct i; discriminate]. cbn in E1, E2.
    injection E1 as <-. subst w.
    assert (Hmg : merged lines [[c] ++ eow] [[c] ++ eow]).
    { apply merged_done. intros a b (l & r & H). destruct l as [|? l]; [discriminate|]. destruct l; discriminate. }
    exists [[c] ++ eow], [[c] ++ eow], [[c]].
    split; [exists [], c; auto|]. split; [exact Hmg|]. split; [right; exists [], [c]; split; [discriminate|auto]|].
    split; [reflexivity|]. split; [discriminate|]. split; [constructor; [discriminate|constructor]|].
    split; [reflexivity|auto].
  - rewrite <- Ep. destruct (bpe_loop_spec lines (length w) w) as (w' & Hb & Hmg); [lia|apply Hp2; congruence|].
    rewrite Hb. cbn [bind]. destruct (K w' Hmg) as (out & H1 & H2 & H3 & H4 & H5).
    exists w, w', out. split; [exact Hm|]. split; [exact Hmg|]. split; [exact H1|]. split; [exact H2|].
    split; [exact H3|]. split; [exact H4|]. rewrite Ep, H5. split; [reflexivity|discriminate].
Qed.

(** ** the vocabulary check *)
Section Check.
  Variables (lines : list (list str)) (rv : @dict str (list str)) (vocab : list str).
  Hypothesis Hlines : merge_lines lines.
  Hypothesis Hmark : mark_at_end lines.
  Hypothesis Hrv1 : forall s x, dget rv s = Some x ->
       exists a b, x = [a; b] /\ a ++ b = s /\ In [a; b] lines /\ a <> [] /\ b <> [].
  Hypothesis Hrv2 : forall s, dget rv s = None -> forall a b, In [a; b] lines -> a ++ b <> s.

  Definition okn (s : str) : Prop := In (s ++ at_at) vocab \/ unsplittable lines s false.
  Definition okf (s : str) : Prop := In s vocab \/ unsplittable lines s true.
  Definition ok_out (final : bool) (out : list str) : Prop :=
    exists i l, out = i ++ [l] /\ Forall okn i /\ if final then okf l else okn l.

  Lemma ok_out_app final o1 o2 : ok_out false o1 -> ok_out final o2 -> ok_out final (o1 ++ o2).
  Proof.
    intros (i & l & -> & Hi & Hl) (i2 & l2 & -> & Hi2 & Hl2). exists ((i ++ [l]) ++ i2), l2.
    split; [now rewrite app_assoc|]. split; [|exact Hl2]. apply Forall_app. split; [|exact Hi2].
    apply Forall_app. split; [exact Hi|]. constructor; [exact Hl|constructor].
  Qed.

  Lemma recursive_split_spec fuel : forall (seg : str) (final : bool),
    length seg + (if final then 1 else 0) < fuel ->
    exists out, recursive_split fuel rv vocab at_at seg final = Ok out /\ concat out = seg /\ ok_out final out.
  Proof.
    induction fuel as [|fuel IH]; intros seg final Hf; [lia|]. cbn [recursive_split].
    set (key := if final then seg ++ eow else seg).
    replace (if final then dget rv (seg ++ eow) else dget rv seg) with (dget rv key) by (unfold key; destruct final; reflexivity).
    destruct (dget rv key) as [x|] eqn:E.
    - destruct (Hrv1 _ _ E) as (a & b & -> & Hab & Hin & Ha & Hb).
      set (rt := if final then firstn (length b - 4) b else b).
      assert (Hrt : a ++ rt = seg /\ length rt + (if final then 1 else 0) < fuel /\ length a + 0 < fuel).
      { unfold rt, key in *. destruct final.
        - destruct (Hmark _ _ _ Hin Hab) as (b' & ->). rewrite app_length.
          replace (length b' + length eow - 4) with (length b') by (cbn; lia).
          rewrite firstn_app, Nat.sub_diag, firstn_all. cbn [firstn]. rewrite app_nil_r.
          rewrite app_assoc in Hab. apply app_eow_inj in Hab. split; [exact Hab|].
          apply (f_equal (@length nat)) in Hab. rewrite app_length in Hab. destruct a; [congruence|cbn in *; lia].
        - split; [exact Hab|]. apply (f_equal (@length nat)) in Hab. rewrite app_length in Hab.
          destruct a; [congruence|]. destruct b; [congruence|]. cbn in *. lia. }
      destruct Hrt as (H1 & H2 & H3).
      assert (Hl : exists out, (if str_in (a ++ at_at) vocab then Ok [a]
                  else recursive_split fuel rv vocab at_at a false) = Ok out /\ concat out = a /\ ok_out false out).
      { destruct (str_in (a ++ at_at) vocab) eqn:Es; [|now apply IH].
        exists [a]. split; [reflexivity|]. split; [cbn; apply app_nil_r|]. exists [], a.
        split; [reflexivity|]. split; [constructor|]. left. now apply str_in_In. }
      destruct Hl as (o1 & Hl1 & Hl2 & Hl3). rewrite Hl1. cbn [bind].
      assert (Hr : exists out, (if (final && str_in rt vocab) || (negb final && str_in (rt ++ at_at) vocab) then Ok [rt]
                  else recursive_split fuel rv vocab at_at rt final) = Ok out /\ concat out = rt /\ ok_out final out).
      { destruct ((final && str_in rt vocab) || (negb final && str_in (rt ++ at_at) vocab)) eqn:Es; [|now apply IH].
        exists [rt]. split; [reflexivity|]. split; [cbn; apply app_nil_r|]. exists [], rt.
        split; [reflexivity|]. split; [constructor|]. destruct final; cbn in Es.
        - rewrite orb_false_r in Es. left. now apply str_in_In.
        - left. now apply str_in_In. }
      destruct Hr as (o2 & Hr1 & Hr2 & Hr3). rewrite Hr1. cbn [bind].
      exists (o1 ++ o2). split; [reflexivity|]. split; [rewrite concat_app, Hl2, Hr2; exact H1|].
      now apply ok_out_app.
    - exists [seg]. split; [reflexivity|]. split; [cbn; apply app_nil_r|]. exists [], seg.
      split; [reflexivity|]. split; [constructor|]. pose proof (Hrv2 _ E) as Hno.
      unfold key in *. destruct final; right; right; exact Hno.
  Qed.

  Lemma check_init_spec segs :
    exists out, check_init rv vocab at_at segs = Ok out /\ concat out = concat segs /\ Forall okn out /\
      (Forall (fun s => In (s ++ at_at) vocab) segs -> out = segs).
  Proof.
    induction segs as [|s segs (o2 & H1 & H2 & H3 & H4)]; [exists (@nil str); cbn; repeat split; auto; constructor|].
    cbn [check_init].
    assert (Hl : exists out, (if str_in (s ++ at_at) vocab then Ok [s]
        else recursive_split (split_fuel s) rv vocab at_at s false) = Ok out /\ concat out = s /\ ok_out false out /\
        (In (s ++ at_at) vocab -> out = [s])).
    { destruct (str_in (s ++ at_at) vocab) eqn:Es.
      - exists [s]. split; [reflexivity|]. split; [cbn; apply app_nil_r|]. split; [|reflexivity]. exists [], s.
        split; [reflexivity|]. split; [constructor|]. left. now apply str_in_In.
      - destruct (recursive_split_spec (split_fuel s) s false) as (out & K1 & K2 & K3); [unfold split_fuel; lia|].
        exists out. split; [exact K1|]. split; [exact K2|]. split; [exact K3|]. intros Hi.
        apply str_in_In in Hi. congruence. }
    destruct Hl as (o1 & K1 & K2 & (i & l & -> & Ki & Kl) & K4). rewrite K1. cbn [bind]. rewrite H1. cbn [bind].
    exists ((i ++ [l]) ++ o2). split; [reflexivity|]. split; [|split].
    - rewrite concat_app. cbn [concat]. now rewrite K2, H2.
    - apply Forall_app. split; [|exact H3]. apply Forall_app. split; [exact Ki|]. constructor; [exact Kl|constructor].
    - intros Hall. apply Forall_cons_iff in Hall. destruct Hall as [Ha Hb]. rewrite (K4 Ha), (H4 Hb). reflexivity.
  Qed.

  Lemma check_vocab_spec word :
    word <> [] ->
    exists out, check_vocab_and_split rv vocab at_at word = Ok out /\ concat out = concat word /\
      in_vocabulary lines vocab out /\
      (Forall (fun s => In (s ++ at_at) vocab) (removelast word) -> In (last word []) vocab -> out = word).
  Proof.
    intros Hw. destruct (exists_last Hw) as (segs & s & ->). unfold check_vocab_and_split.
    rewrite removelast_last, last_last.
    destruct (check_init_spec segs) as (o1 & H1 & H2 & H3 & H4). rewrite H1. cbn [bind].
    assert (Hl : exists out, (if str_in s vocab then Ok [s]
        else recursive_split (split_fuel s) rv vocab at_at s true) = Ok out /\ concat out = s /\ ok_out true out /\
        (In s vocab -> out = [s])).
    { destruct (str_in s vocab) eqn:Es.
      - exists [s]. split; [reflexivity|]. split; [cbn; apply app_nil_r|]. split; [|reflexivity]. exists [], s.
        split; [reflexivity|]. split; [constructor|]. left. now apply str_in_In.
      - destruct (recursive_split_spec (split_fuel s) s true) as (out & K1 & K2 & K3); [unfold split_fuel; lia|].
        exists out. split; [exact K1|]. split; [exact K2|]. split; [exact K3|]. intros Hi.
        apply str_in_In in Hi. congruence. }
    destruct Hl as (o2 & K1 & K2 & (i & l & -> & Ki & Kl) & K4).
    exists (o1 ++ i ++ [l]). split.
    { destruct (segs ++ [s]) eqn:E; [destruct segs; discriminate|]. rewrite K1. reflexivity. }
    split; [|split].
    - rewrite (concat_app segs), (concat_app o1), K2, H2. cbn [concat]. now rewrite app_nil_r.
    - exists (o1 ++ i), l. split; [now rewrite app_assoc|]. split; [|exact Kl]. apply Forall_app. auto.
    - intros Ha Hb. rewrite (H4 Ha), (K4 Hb). reflexivity.
  Qed.
End Check.

Lemma in_vocab_single lines vocab c : In [c] vocab \/ unsplittable lines [c] true.
Proof. right. left. cbn. lia. Qed.

(** [encode_word]: everything together *)
Lemma encode_word_spec v lines labels e word :
  merge_lines lines -> (labels <> None -> mark_at_end lines) -> v <> VOther ->
  load_encoder v lines labels = Ok e -> word <> [] -> ~ contains eow word ->
  exists w w' pieces out,
    marked_chars v word w /\ merged lines w w' /\ unmarked w' pieces /\
    Forall (fun s : str => s <> []) pieces /\
    encode_word e word = Ok out /\ concat out = word /\ out <> [] /\
    match labels with
    | None | Some [] => out = pieces
    | Some vocab => in_vocabulary lines vocab out /\
        (Forall (fun s => In (s ++ at_at) vocab) (removelast pieces) -> In (last pieces []) vocab -> out = pieces)
    end.
Proof.
  intros Hm Hmark Hv He Hw Hc.
  destruct (load_encoder_spec v lines labels Hm) as (e' & He' & Hver & Hlab & Hcodes & Hr1 & Hr2).
  rewrite He in He'. apply Ok_inj in He'. subst e'.
  destruct (encode_merged e v lines word Hver Hv Hcodes Hw Hc) as (w & w' & out & H1 & H2 & H3 & H4 & H5 & H6 & H7 & H8).
  exists w, w', out. rewrite H7, Hlab. clear H7.
  destruct (get_pairs w) as [|p ps] eqn:Ep.
  - exists out. do 6 (split; [assumption || reflexivity|]). split; [exact H5|].
    destruct labels as [[|x vocab]|]; [reflexivity| |reflexivity]. split; [|reflexivity].
    specialize (H8 eq_refl). destruct out as [|s out]; [congruence|]. inversion H6 as [|? ? Hs Ho]; subst.
    assert (El : length (concat (s :: out)) = length s + length (concat out)) by (cbn; now rewrite app_length).
    assert (Hout : out = []).
    { destruct out as [|s2 out]; [reflexivity|]. inversion Ho; subst. cbn in H8. rewrite !app_length in H8.
      destruct s; [congruence|]. destruct s2; [congruence|]. cbn in H8. lia. }
    subst out. exists [], s. split; [reflexivity|]. split; [constructor|]. right. left.
    cbn in H8. rewrite app_nil_r in H8. lia.
  - destruct labels as [[|x vocab]|].
    + exists out. repeat (split; [assumption || reflexivity|]). reflexivity.
    + destruct (check_vocab_spec lines (e_reverse e) (x :: vocab) (Hmark ltac:(discriminate)) Hr1 Hr2 out H5)
        as (out' & K1 & K2 & K3 & K4).
      exists out'. do 5 (split; [assumption || reflexivity|]). rewrite K2, H4. split; [reflexivity|].
      split; [|auto]. intros ->. cbn in K2. congruence.
    + exists out. repeat (split; [assumption || reflexivity|]). reflexivity.
Qed.

(** ** sentences *)
Lemma ends_with_cat p a s : ends_with p s = true -> ends_with p (a ++ s) = true.
Proof. intros H. apply ends_with_inv in H. destruct H as (r & ->). rewrite app_assoc. apply ends_with_app. Qed.

Lemma decode_word pieces : forall cur out,
  pieces <> [] -> ends_with at_at (last pieces []) = false ->
  decode_from cur (map (fun s => s ++ at_at) (removelast pieces) ++ last pieces [] :: out) =
  (cur ++ concat pieces) :: decode_from [] out.
Proof.
  induction pieces as [|p ps IH]; intros cur out Hne Hl; [congruence|].
  destruct ps as [|p2 ps].
  - cbn in *. rewrite Hl. now rewrite app_nil_r.
  - change (removelast (p :: p2 :: ps)) with (p :: removelast (p2 :: ps)).
    change (last (p :: p2 :: ps) []) with (last (p2 :: ps) []) in *. cbn [map app decode_from].
    rewrite ends_with_app. rewrite app_length.
    replace (length p + length at_at - 2) with (length p) by (cbn; lia).
    rewrite firstn_app, Nat.sub_diag, firstn_all. cbn [firstn]. rewrite app_nil_r.
    rewrite IH; [|discriminate|exact Hl]. cbn [concat]. now rewrite <- !app_assoc.
Qed.
Lemma last_suffix (pieces : list str) : pieces <> [] -> exists a, concat pieces = a ++ last pieces [].
Proof.
  intros H. destruct (exists_last H) as (i & l & ->). exists (concat i). rewrite last_last, concat_app.
  cbn. now rewrite app_nil_r.
Qed.

Lemma segment_words_decode e words : forall fc sc,
  Forall (fun w => exists out, encode_word e w = Ok out /\ concat out = w /\ out <> []) words ->
  Forall (fun w => ends_with at_at w = false) words ->
  exists out, segment_words e words fc sc = Ok out /\ decode out = words.
Proof.
  unfold decode. induction words as [|w words IH]; intros fc sc H1 H2; [exists []; auto|].
  inversion H1 as [|? ? (pieces & E1 & E2 & E3) H1']; subst x l. inversion H2 as [|? ? Hw H2']; subst x l.
  cbn [segment_words].
  assert (V : forall fc sc, exists out, (let* out := segment_words e words fc sc in Ok (w :: out)) = Ok out /\
      decode_from [] out = w :: words).
  { intros fc' sc'. destruct (IH fc' sc' H1' H2') as (out & K1 & K2). rewrite K1. cbn [bind]. eexists.
    split; [reflexivity|]. cbn [decode_from]. rewrite Hw. cbn [app]. now rewrite K2. }
  destruct ((hd 0 w =? char_dollar) && (1 <? length w)); [apply V|].
  destruct (fc && (hd 0 w =? char_open)); [apply V|].
  destruct (sc && negb (hd 0 w =? char_close)); [apply V|].
  rewrite E1. cbn [bind]. destruct (IH false false H1' H2') as (out & K1 & K2).
  destruct pieces as [|p ps]; [congruence|]. rewrite K1. cbn [bind]. eexists. split; [reflexivity|].
  change ([last (p :: ps) []] ++ out) with (last (p :: ps) [] :: out).
  rewrite decode_word, K2, E2; [reflexivity|discriminate|].
  apply not_true_is_false. intros El.
  destruct (last_suffix (p :: ps)) as (a & Ha); [discriminate|]. rewrite E2 in Ha.
  apply (ends_with_cat _ a) in El. assert (El2 : ends_with at_at w = true) by (rewrite Ha; exact El). congruence.
Qed.

Lemma segment_words_ordinary e words :
  Forall ordinary words ->
  Forall (fun w => exists out, encode_word e w = Ok out /\ out <> []) words ->
  exists outs, segment_words e words false false = Ok (concat outs) /\
    Forall2 (fun w o => exists pieces, encode_word e w = Ok pieces /\ with_merge_symbol pieces o) words outs.
Proof.
  induction words as [|w words IH]; intros H1 H2; [exists []; split; [reflexivity|constructor]|].
  inversion H1 as [|? ? [Hw1 Hw2] H1']; subst x l. inversion H2 as [|? ? (pieces & E1 & E3) H2']; subst x l.
  destruct (IH H1' H2') as (outs & K1 & K2). cbn [segment_words].
  apply Nat.eqb_neq in Hw2. rewrite Hw2. cbn [andb]. rewrite E1. cbn [bind].
  destruct pieces as [|p ps]; [congruence|]. rewrite K1. cbn [bind].
  exists ((map (fun s => s ++ at_at) (removelast (p :: ps)) ++ [last (p :: ps) []]) :: outs).
  split; [cbn [concat]; now rewrite <- app_assoc|]. constructor; [|exact K2].
  exists (p :: ps). split; [exact E1|]. exists (removelast (p :: ps)), (last (p :: ps) []).
  split; [apply app_removelast_last; discriminate|reflexivity].
Qed.

(** ** the merges determine the result *)
Lemma not_after_antisym lines p q : not_after lines p q -> not_after lines q p -> p = q.
Proof.
  intros (l & r & H1 & H2 & H3) (l' & r' & H4 & H5 & H6).
  assert (E : l = l').
  { revert l' lines H1 H4 H2 H3 H5 H6. induction l as [|x l IH]; intros [|x' l'] lines H1 H4 H2 H3 H5 H6; auto.
    - subst lines. cbn in H4. injection H4 as -> _. exfalso. apply H6. now left.
    - subst lines. cbn in H4. injection H4 as -> _. exfalso. apply H3. now left.
    - subst lines. cbn in H4. injection H4 as -> H4. f_equal.
      apply (IH l' (l ++ p :: r)); auto; intros K; [apply H2|apply H3|apply H5|apply H6]; now right. }
  subst l'. rewrite H1 in H4. apply app_inv_head in H4. now injection H4.
Qed.
Lemma merged_det lines w w1 : merged lines w w1 -> forall w2, merged lines w w2 -> w1 = w2.
Proof.
  induction 1 as [w H|w a b w1 H1 H2 H3 H4 IH]; intros w2 M.
  - inversion M as [? ?|? a b ? K1 K2]; subst; [reflexivity|]. exfalso. exact (H a b K1 K2).
  - inversion M as [? K|? a' b' ? K1 K2 K3 K4]; subst; [exfalso; exact (K a b H1 H2)|].
    assert (E : [a; b] = [a'; b']) by (eapply not_after_antisym; [apply H3|apply K3]; eassumption).
    injection E as <- <-. now apply IH.
Qed.
