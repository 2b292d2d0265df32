From Coq Require Import Sorted.
From Verif Require Import Base ListLemmas PySort PySortProofs TensorModel TensorSpec.
Local Open Scope nat_scope.

(** * Positions *)
Definition indexes (i s : list nat) : Prop := Forall2 lt i s.

Lemma prod_cons n s : prod (n :: s) = n * prod s.
Proof. reflexivity. Qed.
Lemma prod_nil : prod [] = 1.
Proof. reflexivity. Qed.
Lemma flat_cons n s k i : flat (n :: s) (k :: i) = k * prod s + flat s i.
Proof. reflexivity. Qed.
Lemma unflat_cons n s p : unflat (n :: s) p = p / prod s :: unflat s (p mod prod s).
Proof. reflexivity. Qed.
Opaque prod.
Lemma prod_app s1 s2 : prod (s1 ++ s2) = prod s1 * prod s2.
Proof. induction s1 as [|n s1 IH]; cbn [app]; rewrite ?prod_cons, ?prod_nil, ?IH; lia. Qed.
Lemma flat_lt s : forall i, indexes i s -> flat s i < prod s.
Proof.
  induction s as [|n s IH]; intros i H; inversion H; subst; [rewrite prod_nil; cbn; lia|]. rewrite flat_cons, prod_cons. specialize (IH _ H4). nia.
Qed.
Lemma unflat_indexes s : forall p, p < prod s -> indexes (unflat s p) s.
Proof.
  induction s as [|n s IH]; intros p H; [constructor|]. rewrite unflat_cons. rewrite prod_cons in H. constructor.
  - apply Nat.div_lt_upper_bound; lia.
  - apply IH. apply Nat.mod_upper_bound. lia.
Qed.
Lemma unflat_flat s : forall i, indexes i s -> unflat s (flat s i) = i.
Proof.
  induction s as [|n s IH]; intros i H; inversion H; subst; [reflexivity|]. rewrite flat_cons, unflat_cons. pose proof (flat_lt s l H4).
  rewrite Nat.div_add_l by lia. rewrite Nat.div_small by lia. rewrite Nat.add_0_r. f_equal.
  rewrite Nat.add_comm, Nat.mod_add by lia. rewrite Nat.mod_small by lia. apply IH, H4.
Qed.
Lemma flat_unflat s : forall p, p < prod s -> flat s (unflat s p) = p.
Proof.
  induction s as [|n s IH]; intros p H; [rewrite prod_nil in H; cbn; lia|]. rewrite prod_cons in H. rewrite unflat_cons, flat_cons. rewrite IH by (apply Nat.mod_upper_bound; lia).
  pose proof (Nat.div_mod p (prod s) ltac:(lia)). lia.
Qed.
Lemma flat_app s1 s2 : forall i1 i2, length i1 = length s1 -> flat (s1 ++ s2) (i1 ++ i2) = flat s1 i1 * prod s2 + flat s2 i2.
Proof.
  induction s1 as [|n s1 IH]; intros [|k i1] i2 H; try discriminate; cbn [app]; [cbn; lia|]. rewrite !flat_cons. injection H as H. rewrite prod_app, IH by exact H. lia.
Qed.
Lemma at_tabulate s f i : indexes i s -> at_ (tabulate s f) i = f i.
Proof.
  intros H. unfold at_, tabulate. cbn [shape data]. pose proof (flat_lt s i H) as L.
  rewrite (nth_indep _ 0%Z (f (unflat s 0))) by (rewrite map_length, seq_length; exact L). rewrite (map_nth (fun p => f (unflat s p))).
  rewrite seq_nth by exact L. cbn [Nat.add]. rewrite unflat_flat by exact H. reflexivity.
Qed.
Lemma tabulate_len s f : length (data (tabulate s f)) = prod s.
Proof. cbn. rewrite map_length, seq_length. reflexivity. Qed.

(** * Permuting and extending *)
Lemma inb_In x l : inb x l = true <-> In x l.
Proof.
  unfold inb. rewrite existsb_exists. split; [intros (y & Hy & E); apply Nat.eqb_eq in E; subst; exact Hy|intros H; exists x; split; [exact H|apply Nat.eqb_refl]].
Qed.
Lemma inb_false x l : inb x l = false <-> ~ In x l.
Proof. rewrite <- inb_In. destruct (inb x l); intuition congruence. Qed.
Lemma perm_check n p : Permutation p (seq 0 n) -> (length p =? n) && forallb (fun a => inb a p) (seq 0 n) = true.
Proof.
  intros H. rewrite (Permutation_length H), seq_length, Nat.eqb_refl. cbn. apply forallb_forall. intros a Ha. apply inb_In. rewrite H. exact Ha.
Qed.
Fixpoint select (p : list (option nat)) (i : list nat) : list nat :=
  match p, i with
  | Some _ :: p, k :: i => k :: select p i
  | None :: p, _ :: i => select p i
  | _, _ => []
  end.
Fixpoint zeroed (p : list (option nat)) (i : list nat) : list nat :=
  match p, i with
  | Some _ :: p, k :: i => k :: zeroed p i
  | None :: p, _ :: i => 0 :: zeroed p i
  | _, _ => []
  end.
Lemma select_zeroed p : forall i, select p (zeroed p i) = select p i.
Proof. induction p as [|[j|] p IH]; intros [|k i]; cbn; rewrite ?IH; reflexivity. Qed.
Lemma extend_prod p : forall s, length s = length (somes p) -> prod (extend_shape p s) = prod s.
Proof.
  induction p as [|[j|] p IH]; intros s H; cbn in H |- *.
  - destruct s; [reflexivity|discriminate].
  - destruct s as [|n s]; [discriminate|]. cbn. rewrite !prod_cons. injection H as H. rewrite IH by exact H. reflexivity.
  - rewrite prod_cons, IH by exact H. lia.
Qed.
Lemma extend_flat p : forall s i, length s = length (somes p) -> length i = length p -> flat (extend_shape p s) (zeroed p i) = flat s (select p i).
Proof.
  induction p as [|[j|] p IH]; intros s i H Hi; destruct i as [|k i]; try discriminate; cbn in H |- *.
  - destruct s; [reflexivity|discriminate].
  - destruct s as [|n s]; [discriminate|]. cbn. injection H as H. injection Hi as Hi. rewrite IH, extend_prod by assumption. reflexivity.
  - injection Hi as Hi. rewrite IH by assumption. reflexivity.
Qed.
Lemma extend_map p (f : nat -> nat) : extend_shape p (map f (somes p)) = map (fun o => match o with Some j => f j | None => 1 end) p.
Proof. induction p as [|[j|] p IH]; cbn; [reflexivity|fold (somes p)|fold (somes p)]; rewrite IH; reflexivity. Qed.

Definition fits (own : list dim) (p : list (option nat)) (ds : list dim) : Prop :=
  Forall2 (fun o d => match o with Some j => exists x, nth_error own j = Some x /\ d_base x = d_base d | None => True end) p ds.
Lemma fits_permutation own p ds : a_permutation own ds p <-> fits own p ds /\ Permutation (somes p) (seq 0 (length own)).
Proof.
  unfold a_permutation, fits. split.
  - intros (Hl & HP & H). split; [|exact HP]. clear HP. revert ds Hl H. induction p as [|o p IH]; intros [|d ds] Hl H; try discriminate; constructor.
    + destruct o as [j|]; [|exact I]. exact (H 0 j d eq_refl eq_refl).
    + apply IH; [now injection Hl|]. intros k j d' E1 E2. exact (H (S k) j d' E1 E2).
  - intros (H & HP). split; [eapply Forall2_len, H|]. split; [exact HP|]. clear HP. induction H as [|o d p ds Ho H IH]; intros [|k] j d' E1 E2; try discriminate; cbn in *.
    + injection E1 as ->. injection E2 as ->. exact Ho.
    + eapply IH; eassumption.
Qed.

(** [r] stands for the function [v] of the indices of the dims [ds], by broadcasting; it has an axis for all those in [own]. *)
Definition stands (size : nat -> nat) (ds : list dim) (own : list dim) (v : (nat -> nat) -> Z) (r : raw) : Prop :=
  (length (shape r) = length ds \/ shape r = []) /\
  (forall k d, nth_error ds k = Some d -> nth k (pad_shape (length ds) (shape r)) 0 = 1 \/ nth k (pad_shape (length ds) (shape r)) 0 = size (d_base d)) /\
  (forall k d, nth_error ds k = Some d -> In (d_base d) (bases own) -> nth k (pad_shape (length ds) (shape r)) 0 = size (d_base d)) /\
  (forall env, inside size env ds -> at_ r (broadcast_index (shape r) (map env (bases ds))) = v env).

(** a raw tensor that is permuted *)
Definition permuted (size : nat -> nat) (own : list dim) (r : raw) (p : list (option nat)) (r1 : raw) : Prop :=
  shape r1 = map (fun a => nth a (shape r) 0) (somes p) /\ length (data r1) = prod (shape r1) /\
  forall i, indexes i (shape r1) -> at_ r1 i = at_ r (map (fun a => nth (pos a (somes p)) i 0) (seq 0 (length (shape r)))).

Lemma map_perm_prod s p : Permutation p (seq 0 (length s)) -> prod (map (fun a => nth a s 0) p) = prod s.
Proof.
  intros H. transitivity (prod (map (fun a => nth a s 0) (seq 0 (length s)))).
  - apply (Permutation_map (fun a => nth a s 0)) in H. revert H. generalize (map (fun a => nth a s 0) p), (map (fun a => nth a s 0) (seq 0 (length s))). intros l1 l2 H. induction H; rewrite ?prod_cons; lia.
  - rewrite map_nth_seq. reflexivity.
Qed.
Lemma permute_ok size own r p : length own = length (shape r) -> Permutation (somes p) (seq 0 (length own)) ->
  exists r1, permute r (somes p) = Ok r1 /\ permuted size own r p r1.
Proof.
  intros Hl HP. rewrite Hl in HP. unfold permute. rewrite perm_check by exact HP. eexists. split; [reflexivity|]. split; [reflexivity|]. split; [apply tabulate_len|]. intros i Hi. cbn [shape tabulate] in Hi.
  rewrite at_tabulate by exact Hi. reflexivity.
Qed.
Lemma pos_seq a b n : a <= n < a + b -> pos n (seq a b) = n - a.
Proof.
  revert a. induction b as [|b IH]; intros a H; [lia|]. cbn. destruct (Nat.eqb_spec n a); [lia|]. rewrite IH by lia. lia.
Qed.
Lemma permuted_id size own r p : length own = length (shape r) -> length (data r) = prod (shape r) -> somes p = seq 0 (length own) -> permuted size own r p r.
Proof.
  intros Hl Hd E. unfold permuted. rewrite E, Hl. split; [symmetry; apply map_nth_seq|]. split; [exact Hd|]. intros i Hi. f_equal.
  apply Forall2_len in Hi. rewrite <- Hi. erewrite map_ext_in; [symmetry; apply map_nth_seq|]. intros a Ha. apply in_seq in Ha. cbv beta. rewrite pos_seq by lia. f_equal. lia.
Qed.

Section Stands.
Variable size : nat -> nat.

Lemma bases_len ds : length (bases ds) = length ds.
Proof. apply map_length. Qed.
Lemma nth_select own (e e' : nat -> nat) p ds : fits own p ds ->
  forall a, In a (somes p) -> nth (pos a (somes p)) (select p (map e (bases ds))) 0 = nth a (map e (bases own)) 0.
Proof.
  induction 1 as [|o d p ds Ho H IH]; intros a Ha; [destruct Ha|]. destruct o as [j|]; cbn in *.
  - destruct (Nat.eqb_spec a j) as [->|Hne].
    + destruct Ho as (x & Ex & Eb). unfold bases. rewrite map_map. symmetry. rewrite <- Eb. apply nth_error_nth. rewrite nth_error_map, Ex. reflexivity.
    + destruct Ha as [->|Ha]; [contradiction|]. apply IH, Ha.
  - apply IH, Ha.
Qed.
Lemma select_indexes own (env : nat -> nat) p ds : fits own p ds -> inside size env ds ->
  indexes (select p (map env (bases ds))) (map (fun a => nth a (map size (bases own)) 0) (somes p)).
Proof.
  induction 1 as [|o d p ds Ho H IH]; intros Hi; [constructor|]. inversion Hi; subst. destruct o as [j|]; cbn; [|apply IH, H3].
  constructor; [|apply IH, H3]. destruct Ho as (x & Ex & Eb). erewrite nth_error_nth; [|unfold bases; rewrite !nth_error_map, Ex; reflexivity]. rewrite Eb. exact H2.
Qed.
Lemma ext_index own (env : nat -> nat) p ds : fits own p ds -> inside size env ds ->
  broadcast_index (map (fun o => match o with Some j => nth j (map size (bases own)) 0 | None => 1 end) p) (map env (bases ds)) = zeroed p (map env (bases ds)).
Proof.
  intros H Hi. unfold broadcast_index. rewrite map_length, map_length, bases_len, (Forall2_len _ _ _ H), Nat.sub_diag. cbn [skipn].
  induction H as [|o d p ds Ho H IH]; [reflexivity|]. inversion Hi; subst. change (bases (d :: ds)) with (d_base d :: bases ds). cbn [map combine zeroed]. rewrite IH by assumption. destruct o as [j|]; [|reflexivity]. f_equal.
  destruct Ho as (x & Ex & Eb). erewrite nth_error_nth; [|unfold bases; rewrite !nth_error_map, Ex; reflexivity]. rewrite Eb. destruct (Nat.eqb_spec (size (d_base d)) 1); [lia|reflexivity].
Qed.
Lemma NoDup_nth_inj {A B} (f : A -> B) l : NoDup (map f l) -> forall i j x y, nth_error l i = Some x -> nth_error l j = Some y -> f x = f y -> i = j.
Proof.
  intros Hn i j x y E1 E2 E. apply (proj1 (NoDup_nth_error (map f l)) Hn); [rewrite map_length; apply nth_error_Some; congruence|].
  rewrite !nth_error_map, E1, E2. cbn. congruence.
Qed.
(** extending a permuted raw tensor *)
Lemma extended_stands own r p ds r1 : shape r = map size (bases own) -> a_permutation own ds p -> NoDup (bases ds) ->
  permuted size own r p r1 ->
  exists r2, reshape r1 (extend_shape p (shape r1)) = Ok r2 /\ stands size ds own (fun env => at_ r (map env (bases own))) r2 /\ length (shape r2) = length ds.
Proof.
  intros Hs HP Hn (Es & Hd & Hat). destruct (proj1 (fits_permutation _ _ _) HP) as (Hf & Hperm).
  assert (Hlo : length (shape r) = length own) by (rewrite Hs, map_length, bases_len; reflexivity).
  assert (Hls : length (shape r1) = length (somes p)) by (rewrite Es, map_length; reflexivity).
  unfold reshape. rewrite extend_prod by exact Hls. rewrite Nat.eqb_refl. eexists. split; [reflexivity|].
  assert (Eext : extend_shape p (shape r1) = map (fun o => match o with Some j => nth j (map size (bases own)) 0 | None => 1 end) p).
  { rewrite Es, Hs. apply extend_map. }
  unfold stands. cbn [shape]. rewrite Eext. rewrite map_length. pose proof (Forall2_len _ _ _ Hf) as Hlp. split; [|exact Hlp].
  assert (Hpad : pad_shape (length ds) (map (fun o => match o with Some j => nth j (map size (bases own)) 0 | None => 1 end) p) = map (fun o => match o with Some j => nth j (map size (bases own)) 0 | None => 1 end) p).
  { unfold pad_shape. rewrite map_length, Hlp, Nat.sub_diag. reflexivity. }
  rewrite !Hpad.
  assert (Hk : forall k d o, nth_error ds k = Some d -> nth_error p k = Some o -> match o with Some j => nth j (map size (bases own)) 0 = size (d_base d) | None => True end).
  { intros k d [j|] E1 E2; [|exact I]. destruct HP as (_ & _ & HP). destruct (HP k j d E2 E1) as (x & Ex & Eb). erewrite nth_error_nth; [|unfold bases; rewrite !nth_error_map, Ex; reflexivity]. congruence. }
  assert (Hp : forall k d, nth_error ds k = Some d -> exists o, nth_error p k = Some o).
  { intros k d E. destruct (nth_error p k) eqn:E1; [eauto|]. apply nth_error_None in E1. assert (k < length ds) by (apply nth_error_Some; congruence). lia. }
  split; [left; exact Hlp|]. split; [|split].
  - intros k d E. destruct (Hp k d E) as (o & Eo). specialize (Hk k d o E Eo). erewrite (nth_error_nth (map _ p)); [|rewrite nth_error_map, Eo; reflexivity]. destruct o; [right; exact Hk|left; reflexivity].
  - intros k d E Hin. unfold bases in Hin. apply in_map_iff in Hin as (x & Ex & Hx). apply In_nth_error in Hx as (j & Ej).
    assert (Hj : In j (somes p)). { rewrite Hperm. apply in_seq. assert (j < length own) by (apply nth_error_Some; congruence). lia. }
    unfold somes in Hj. apply in_flat_map in Hj as (o & Ho & Hjo). destruct o as [j'|]; [|destruct Hjo]. destruct Hjo as [->|[]]. apply In_nth_error in Ho as (k' & Ek').
    destruct (nth_error ds k') as [d'|] eqn:Ed'; [|apply nth_error_None in Ed'; assert (k' < length p) by (apply nth_error_Some; congruence); lia].
    destruct HP as (_ & _ & HP). destruct (HP k' j d' Ek' Ed') as (x' & Ex' & Eb'). assert (x' = x) by congruence. subst x'.
    assert (k' = k) by (eapply (NoDup_nth_inj d_base ds Hn); [exact Ed'|exact E|congruence]). subst k'. specialize (Hk k d (Some j) E Ek'). cbn in Hk.
    erewrite (nth_error_nth (map _ p)); [|rewrite nth_error_map, Ek'; reflexivity]. exact Hk.
  - intros env Hi. rewrite (ext_index own env p ds Hf Hi). unfold at_ at 1. cbn [shape data]. rewrite <- Eext. rewrite extend_flat; [|exact Hls|rewrite map_length, bases_len; symmetry; exact Hlp].
    fold (at_ r1 (select p (map env (bases ds)))). rewrite Hat; [|rewrite Es, Hs; apply select_indexes; assumption]. f_equal. rewrite Hlo.
    assert (Hlm : length own = length (map env (bases own))) by (rewrite map_length, bases_len; reflexivity). rewrite Hlm. rewrite <- (map_nth_seq 0 (map env (bases own))) at 2.
    apply map_ext_in. intros a Ha. rewrite <- Hlm in Ha. apply (nth_select own env env); [exact Hf|]. rewrite Hperm. exact Ha.
Qed.

(** * The raw operation on what stands for two functions *)
Lemma broadcast_ok ds : forall sa sb, length sa = length ds -> length sb = length ds ->
  (forall k d, nth_error ds k = Some d -> (nth k sa 0 = 1 \/ nth k sa 0 = size (d_base d)) /\ (nth k sb 0 = 1 \/ nth k sb 0 = size (d_base d)) /\ (nth k sa 0 = size (d_base d) \/ nth k sb 0 = size (d_base d))) ->
  broadcast_shape sa sb = Ok (map size (bases ds)).
Proof.
  induction ds as [|d ds IH]; intros [|n sa] [|m sb] Ha Hb H; try discriminate; [reflexivity|]. cbn [broadcast_shape]. injection Ha as Ha. injection Hb as Hb.
  rewrite IH by (try assumption; intros k d' E; exact (H (S k) d' E)). cbn [bind]. destruct (H 0 d eq_refl) as (H1 & H2 & H3). cbn [nth] in *. change (map size (bases (d :: ds))) with (size (d_base d) :: map size (bases ds)).
  destruct (Nat.eqb_spec n m); cbn [orb]; [destruct H3; congruence|]. destruct (Nat.eqb_spec m 1).
  - destruct H3, H1; congruence.
  - destruct (Nat.eqb_spec n 1); [destruct H2; congruence|]. destruct H1, H2; congruence.
Qed.
Lemma pad_len n s : length s = n \/ s = [] -> length (pad_shape n s) = n.
Proof. intros [H| ->]; unfold pad_shape; rewrite app_length, repeat_length; cbn; lia. Qed.
Lemma inside_indexes env ds : inside size env ds -> indexes (map env (bases ds)) (map size (bases ds)).
Proof. unfold inside, indexes. induction (bases ds); intros H; inversion H; subst; constructor; auto. Qed.
Lemma map2_ok op ds oa ob va vb ra rb : stands size ds oa va ra -> stands size ds ob vb rb ->
  length (shape ra) = length ds \/ length (shape rb) = length ds -> (forall c, In c (bases ds) -> In c (bases oa) \/ In c (bases ob)) ->
  exists r, map2 op ra rb = Ok r /\ shape r = map size (bases ds) /\ length (data r) = prod (shape r) /\
    forall env, inside size env ds -> at_ r (map env (bases ds)) = op (va env) (vb env).
Proof.
  intros (La & A1 & A2 & A3) (Lb & B1 & B2 & B3) Hl Hc. unfold map2.
  assert (En : Nat.max (length (shape ra)) (length (shape rb)) = length ds).
  { destruct La as [La|La], Lb as [Lb|Lb]; rewrite ?La, ?Lb in *; cbn in *; lia. }
  rewrite En. rewrite (broadcast_ok ds); [|apply pad_len, La|apply pad_len, Lb|].
  - cbn [bind]. eexists. split; [reflexivity|]. split; [reflexivity|]. split; [apply tabulate_len|]. intros env Hi. rewrite at_tabulate by (apply inside_indexes, Hi). rewrite A3, B3 by exact Hi. reflexivity.
  - intros k d E. split; [exact (A1 k d E)|]. split; [exact (B1 k d E)|]. destruct (Hc (d_base d)) as [H|H]; [apply in_map; eapply nth_error_In, E| |].
    + left. exact (A2 k d E H).
    + right. exact (B2 k d E H).
Qed.

(** a tensor stands for itself, and so does a scalar for any dims *)
Lemma index_full env ds : inside size env ds -> broadcast_index (map size (bases ds)) (map env (bases ds)) = map env (bases ds).
Proof.
  unfold broadcast_index. rewrite !map_length, Nat.sub_diag. cbn [skipn]. unfold inside. induction (bases ds) as [|c l IH]; intros H; inversion H; subst; [reflexivity|]. cbn [map combine]. rewrite IH by assumption. f_equal.
  destruct (Nat.eqb_spec (size c) 1); [lia|reflexivity].
Qed.
Lemma stands_same t ds : well size t -> bases ds = bases (dims t) -> stands size ds (dims t) (value t) (traw t) /\ length (shape (traw t)) = length ds.
Proof.
  intros (Hs & Hd & Hn) Eb. assert (Hl : length (shape (traw t)) = length ds) by (rewrite Hs, map_length, <- Eb, bases_len; reflexivity). split; [|exact Hl].
  assert (Hp : forall k d, nth_error ds k = Some d -> nth k (pad_shape (length ds) (shape (traw t))) 0 = size (d_base d)).
  { intros k d E. unfold pad_shape. rewrite Hl, Nat.sub_diag. cbn [repeat app]. rewrite Hs, <- Eb. apply nth_error_nth. unfold bases. rewrite !nth_error_map, E. reflexivity. }
  split; [left; exact Hl|]. split; [intros k d E; right; apply Hp, E|]. split; [intros k d E _; apply Hp, E|]. intros env Hi. rewrite Hs, <- Eb, index_full by exact Hi. unfold value. rewrite Eb. reflexivity.
Qed.
Lemma stands_self t : well size t -> stands size (dims t) (dims t) (value t) (traw t) /\ length (shape (traw t)) = length (dims t).
Proof. intros H. apply stands_same; [exact H|reflexivity]. Qed.
Lemma nth_ones n : forall k, k < n -> nth k (repeat 1 n) 0 = 1.
Proof. induction n as [|n IH]; intros [|k] Hk; cbn; [lia|lia|reflexivity|]. apply IH. lia. Qed.
Lemma stands_scalar t ds : well size t -> dims t = [] -> stands size ds (dims t) (value t) (traw t).
Proof.
  intros (Hs & Hd & Hn) E. rewrite E in Hs. cbn in Hs. unfold stands. rewrite Hs, E. split; [right; reflexivity|].
  assert (Hp : forall k, k < length ds -> nth k (pad_shape (length ds) []) 0 = 1).
  { intros k Hk. unfold pad_shape. cbn [length]. rewrite Nat.sub_0_r, app_nil_r. apply nth_ones, Hk. }
  split; [intros k d Ek; left; apply Hp, nth_error_Some; congruence|]. split; [intros k d _ []|]. intros env _. unfold broadcast_index, value. rewrite E. reflexivity.
Qed.
End Stands.

(** * Permutations *)
Lemma same_eq a b : same a b = true -> a = b.
Proof.
  unfold same. intros H. apply andb_true_iff in H as [H H3]. apply andb_true_iff in H as [H1 H2]. apply Nat.eqb_eq in H1, H2. apply Z.eqb_eq in H3. destruct a, b; cbn in *; congruence.
Qed.
Lemma same_refl a : same a a = true.
Proof. unfold same. rewrite !Nat.eqb_refl, Z.eqb_refl. reflexivity. Qed.
Lemma deq_eq a b : deq a b = true <-> d_base a = d_base b.
Proof. apply Nat.eqb_eq. Qed.
Lemma somes_app p q : somes (p ++ q) = somes p ++ somes q.
Proof. apply flat_map_app. Qed.

Lemma candidates_spec d taken c : forall own j acc, In c (candidates d taken j own acc) ->
  In c acc \/ j <= c /\ ~ In c taken /\ exists o, nth_error own (c - j) = Some o /\ d_base o = d_base d.
Proof.
  induction own as [|o own IH]; intros j acc H; cbn in H; [left; exact H|].
  assert (Hnext : forall acc', In c (candidates d taken (S j) own acc') -> In c acc' \/ j <= c /\ ~ In c taken /\ exists x, nth_error (o :: own) (c - j) = Some x /\ d_base x = d_base d).
  { intros acc' H'. destruct (IH (S j) acc' H') as [H1|(H1 & H2 & x & Ex & Eb)]; [left; exact H1|right]. split; [lia|]. split; [exact H2|]. exists x. replace (c - j) with (S (c - S j)) by lia. auto. }
  destruct (inb j taken) eqn:Ej; [apply Hnext, H|]. apply inb_false in Ej. destruct (same d o) eqn:Es.
  - destruct H as [->|[]]. right. split; [lia|]. split; [exact Ej|]. exists o. rewrite Nat.sub_diag. apply same_eq in Es. subst o. auto.
  - destruct (Hnext _ H) as [H1|H1]; [|right; exact H1]. destruct (deq d o) eqn:Ed; [|left; exact H1]. apply in_app_or in H1 as [H1|[<-|[]]]; [left; exact H1|right].
    split; [lia|]. split; [exact Ej|]. exists o. rewrite Nat.sub_diag. apply deq_eq in Ed. auto.
Qed.
Lemma best_In own : forall cs st m mp c, best own cs st = Some (m, mp, c) -> In m cs \/ exists mp' c', st = Some (m, mp', c').
Proof.
  induction cs as [|j cs IH]; intros st m mp c H; cbn in H; [right; eauto|]. apply IH in H as [H|(mp' & c' & H)]; [left; right; exact H|].
  destruct st as [((m0, mp0), c0)|]; [destruct (mp0 <? _)%Z; [|destruct (_ =? _)%Z]|]; injection H as -> _ _; cbn; eauto.
Qed.
Lemma choose_In own cs j : choose own cs = Ok (Some j) -> In j cs.
Proof.
  unfold choose. destruct cs as [|c1 [|c2 cs]]; [discriminate|intros H; injection H as ->; left; reflexivity|]. destruct (best own (c1 :: c2 :: cs) None) as [((m, mp), c)|] eqn:E; [|discriminate].
  destruct (1 <? c); [discriminate|]. intros H. injection H as ->. apply best_In in E as [H|(? & ? & H)]; [exact H|discriminate].
Qed.
Lemma loop_spec own : forall ds taken p t, NoDup taken -> (forall j, In j taken -> j < length own) -> out_permutation_loop own taken ds = Ok (p, t) ->
  t = rev (somes p) ++ taken /\ fits own p ds /\ NoDup t /\ (forall j, In j t -> j < length own).
Proof.
  induction ds as [|d ds IH]; intros taken p t Hn Hb H; cbn [out_permutation_loop] in H; [injection H as <- <-; repeat split; try assumption; constructor|].
  apply bind_Ok in H as (c & Ec & H). apply bind_Ok in H as ((p', t') & Ep & H). injection H as <- <-. destruct c as [j|].
  - apply choose_In in Ec. apply candidates_spec in Ec as [[]|(_ & Hj & o & Eo & Eb)]. rewrite Nat.sub_0_r in Eo. assert (Hjl : j < length own) by (apply nth_error_Some; congruence).
    apply IH in Ep as (-> & Hf & Hn' & Hb'); [|constructor; assumption|intros x [<-|Hx]; auto]. cbn. fold (somes p'). rewrite <- app_assoc. split; [reflexivity|]. split; [|split; assumption]. constructor; [exists o; auto|exact Hf].
  - apply IH in Ep as (-> & Hf & Hn' & Hb'); [|assumption|assumption]. split; [reflexivity|]. split; [constructor; [exact I|exact Hf]|]. split; assumption.
Qed.
Lemma all_taken n l : NoDup l -> (forall j, In j l -> j < n) -> n <= length l -> Permutation l (seq 0 n).
Proof.
  intros Hn Hb Hl. apply NoDup_Permutation_bis; [exact Hn|rewrite seq_length; exact Hl|]. intros j Hj. apply in_seq. apply Hb in Hj. lia.
Qed.
Lemma loop_permutation own ds p t : out_permutation_loop own [] ds = Ok (p, t) -> length t = length own -> a_permutation own ds p.
Proof.
  intros H Hl. apply loop_spec in H as (-> & Hf & Hn & Hb); [|constructor|intros j []]. rewrite app_nil_r in *. apply fits_permutation. split; [exact Hf|]. rewrite (Permutation_rev (somes p)). apply all_taken; [exact Hn|exact Hb|lia].
Qed.
Lemma out_permutation_spec own ds p : out_permutation own ds = Ok p -> a_permutation own ds p.
Proof.
  unfold out_permutation. intros H. apply bind_Ok in H as ((p', t) & E & H). apply bind_Ok in H as (? & Ha & H). injection H as ->. apply assert_Ok in Ha. apply Nat.eqb_eq in Ha. eapply loop_permutation; eassumption.
Qed.

(** the dims are distinct: it succeeds *)
Lemma candidates_none d taken : forall own j acc, ~ In (d_base d) (bases own) -> candidates d taken j own acc = acc.
Proof.
  induction own as [|o own IH]; intros j acc H; [reflexivity|]. cbn [candidates]. cbn in H. assert (deq d o = false) by (apply Nat.eqb_neq; intuition congruence).
  assert (same d o = false) by (unfold same; unfold deq in H0; rewrite H0; reflexivity). rewrite H0, H1, !IH by tauto. destruct (inb j taken); reflexivity.
Qed.
Lemma candidates_one d taken : forall own j a o, NoDup (bases own) -> nth_error own a = Some o -> d_base o = d_base d -> ~ In (j + a) taken -> candidates d taken j own [] = [j + a].
Proof.
  induction own as [|x own IH]; intros j [|a] o Hn E Eb Ht; try discriminate; cbn in Hn; apply NoDup_cons_iff in Hn as [Hx Hn]; cbn [candidates].
  - injection E as ->. rewrite Nat.add_0_r in *. apply inb_false in Ht. rewrite Ht. destruct (same d o); [reflexivity|]. assert (deq d o = true) by (apply deq_eq; congruence). rewrite H. apply candidates_none. rewrite <- Eb. exact Hx.
  - cbn in E. assert (Hne : d_base d <> d_base x). { intros H. apply Hx. rewrite <- H, <- Eb. apply in_map. eapply nth_error_In, E. }
    assert (deq d x = false) by (apply Nat.eqb_neq; exact Hne). assert (same d x = false) by (unfold same; unfold deq in H; rewrite H; reflexivity). rewrite H, H0. replace (j + S a) with (S j + a) in * by lia.
    rewrite (IH (S j) a o Hn E Eb Ht). destruct (inb j taken); reflexivity.
Qed.
Lemma base_cases d own : (exists a o, nth_error own a = Some o /\ d_base o = d_base d) \/ ~ In (d_base d) (bases own).
Proof.
  destruct (in_dec Nat.eq_dec (d_base d) (bases own)) as [H|H]; [left|right; exact H]. unfold bases in H. apply in_map_iff in H as (o & Eb & Ho). apply In_nth_error in Ho as (a & Ea). eauto.
Qed.
Lemma loop_total own : NoDup (bases own) -> forall ds taken, NoDup (bases ds) -> (forall a o, In a taken -> nth_error own a = Some o -> ~ In (d_base o) (bases ds)) ->
  exists p t, out_permutation_loop own taken ds = Ok (p, t) /\ incl taken t /\ forall a o, nth_error own a = Some o -> In (d_base o) (bases ds) -> In a t.
Proof.
  intros Hn. induction ds as [|d ds IH]; intros taken Hd Ht; [exists [], taken; split; [reflexivity|]; split; [apply incl_refl|intros a o _ []]|].
  cbn in Hd. apply NoDup_cons_iff in Hd as [Hx Hd]. cbn [out_permutation_loop]. destruct (base_cases d own) as [(a & o & Ea & Eb)|Hno].
  - assert (Hta : ~ In (0 + a) taken). { cbn. intros H. apply (Ht a o H Ea). left. congruence. }
    rewrite (candidates_one d taken own 0 a o Hn Ea Eb Hta). cbn [choose bind Nat.add]. destruct (IH (a :: taken) Hd) as (p & t & Ep & Hi & Hin).
    { intros a' o' [<-|Ha'] Eo' Hin; [assert (o' = o) by congruence; subst o'; apply Hx; change (In (d_base d) (bases ds)); congruence|]. apply (Ht a' o' Ha' Eo'). right. exact Hin. }
    exists (Some a :: p), t. rewrite Ep. split; [reflexivity|]. split; [intros x Hx'; apply Hi; right; exact Hx'|]. intros a' o' Ea' [Hin'|Hin']; [|exact (Hin a' o' Ea' Hin')].
    assert (a' = a) by (eapply (NoDup_nth_inj d_base own Hn); [exact Ea'|exact Ea|congruence]). subst a'. apply Hi. left. reflexivity.
  - rewrite candidates_none by exact Hno. cbn [choose bind]. destruct (IH taken Hd) as (p & t & Ep & Hi & Hin).
    { intros a' o' Ha' Eo' Hin. apply (Ht a' o' Ha' Eo'). right. exact Hin. }
    exists (None :: p), t. rewrite Ep. split; [reflexivity|]. split; [exact Hi|]. intros a' o' Ea' [Hin'|Hin']; [|exact (Hin a' o' Ea' Hin')].
    exfalso. apply Hno. rewrite Hin'. apply in_map. eapply nth_error_In, Ea'.
Qed.
Lemma loop_complete own ds : NoDup (bases own) -> NoDup (bases ds) -> incl (bases own) (bases ds) -> exists p t, out_permutation_loop own [] ds = Ok (p, t) /\ length t = length own.
Proof.
  intros Hn Hd Hi. destruct (loop_total own Hn ds [] Hd ltac:(intros a o [])) as (p & t & E & _ & Hin). exists p, t. split; [exact E|]. apply loop_spec in E as (_ & _ & Hnt & Hb); [|constructor|intros j []].
  apply Nat.le_antisymm.
  - rewrite <- (seq_length (length own) 0). apply NoDup_incl_length; [exact Hnt|]. intros j Hj. apply in_seq. apply Hb in Hj. lia.
  - rewrite <- (seq_length (length own) 0) at 1. apply NoDup_incl_length; [apply seq_NoDup|]. intros j Hj. apply in_seq in Hj. destruct (nth_error own j) as [o|] eqn:Eo; [|apply nth_error_None in Eo; lia].
    apply (Hin j o Eo). apply Hi. apply in_map. eapply nth_error_In, Eo.
Qed.
Lemma out_permutation_complete own ds : NoDup (bases own) -> NoDup (bases ds) -> incl (bases own) (bases ds) -> exists p, out_permutation own ds = Ok p.
Proof.
  intros Hn Hd Hi. destruct (loop_complete own ds Hn Hd Hi) as (p & t & E & Hl). exists p. unfold out_permutation. rewrite E. cbn [bind]. rewrite Hl, Nat.eqb_refl. reflexivity.
Qed.

(** * Making a tensor compatible *)
Section Compatible.
Variable size : nat -> nat.

Lemma identity_somes : forall p n, is_identity n p = true -> somes p = seq n (length p) /\ p = map Some (seq n (length p)).
Proof.
  induction p as [|[j|] p IH]; intros n H; cbn in H; [split; reflexivity| |discriminate]. apply andb_true_iff in H as [H1 H2]. apply Nat.eqb_eq in H1. subst j. destruct (IH _ H2) as [E1 E2]. cbn. fold (somes p). rewrite E1. split; [reflexivity|f_equal; exact E2].
Qed.
Lemma fits_identity own ds p : fits own p ds -> somes p = seq 0 (length own) -> length p = length own -> bases ds = bases own.
Proof.
  intros Hf Es Hl. assert (Hall : forall k o, nth_error p k = Some o -> o = Some k).
  { assert (G : forall q n, somes q = seq n (length q) -> forall k o, nth_error q k = Some o -> o = Some (n + k)).
    { induction q as [|[j|] q IH]; intros n E k o Ek; [destruct k; discriminate| |].
      - cbn in E. fold (somes q) in E. injection E as -> E. destruct k as [|k]; cbn in Ek; [injection Ek as <-; f_equal; lia|]. rewrite (IH (S n) E k o Ek). f_equal. lia.
      - exfalso. cbn [somes flat_map app] in E. fold (somes q) in E. assert (length (somes q) <= length q). { clear. induction q as [|[j|] q IH]; cbn; try fold (somes q); lia. } rewrite E, seq_length in H. cbn in H. lia. }
    intros k o Ek. apply (G p 0); [rewrite Es, Hl; reflexivity|exact Ek]. }
  apply nth_error_ext. intros k. unfold bases. rewrite !nth_error_map. pose proof (Forall2_len _ _ _ Hf) as Hlp. destruct (nth_error p k) as [o|] eqn:Ep.
  - pose proof (Hall k o Ep) as ->. destruct (nth_error ds k) as [d|] eqn:Ed; [|apply nth_error_None in Ed; assert (k < length p) by (apply nth_error_Some; congruence); lia].
    destruct (Forall2_nth _ _ _ _ _ _ Hf Ep Ed) as (x & Ex & Eb). rewrite Ex. cbn. congruence.
  - apply nth_error_None in Ep. rewrite (proj2 (nth_error_None ds k)), (proj2 (nth_error_None own k)) by lia. reflexivity.
Qed.
Lemma compatible_ok t ds : well size t -> NoDup (bases ds) -> incl (bases (dims t)) (bases ds) ->
  exists r, compatible_raw t ds = Ok r /\ stands size ds (dims t) (value t) r /\ length (shape r) = length ds.
Proof.
  intros Hw Hd Hi. destruct Hw as (Hs & Hda & Hn). destruct (out_permutation_complete _ _ Hn Hd Hi) as (p & Ep). pose proof (out_permutation_spec _ _ _ Ep) as HP.
  destruct (proj1 (fits_permutation _ _ _) HP) as (Hf & Hperm). assert (Hlo : length (dims t) = length (shape (traw t))) by (rewrite Hs, map_length, bases_len; reflexivity).
  unfold compatible_raw. rewrite Ep. cbn [bind]. destruct ((length p =? length (dims t)) && is_identity 0 p) eqn:Eid.
  - apply andb_true_iff in Eid as [E1 E2]. apply Nat.eqb_eq in E1. apply identity_somes in E2 as [E2 _]. exists (traw t). split; [reflexivity|]. apply stands_same; [repeat split; assumption|]. eapply fits_identity; [exact Hf|rewrite E2, E1; reflexivity|exact E1].
  - destruct (permute_ok size (dims t) (traw t) p Hlo Hperm) as (r1 & E1 & H1). rewrite E1. cbn [bind]. destruct (extended_stands size (dims t) (traw t) p ds r1 Hs HP Hd H1) as (r2 & E2 & H2).
    exists r2. split; [|exact H2]. rewrite <- E2. f_equal. rewrite (proj1 H1). symmetry. apply extend_map.
Qed.

(** the native variant *)
Lemma need_permute_codes : forall p, need_permute p = false -> forall k x y, nth_error p k = Some x -> nth_error p (S k) = Some y -> code y = (code x + 1)%Z.
Proof.
  induction p as [|x [|y p] IH]; intros H k x' y' E1 E2; [destruct k; discriminate|destruct k as [|[|k]]; discriminate|]. cbn [need_permute] in H. apply orb_false_iff in H as [H1 H2]. apply negb_false_iff, Z.eqb_eq in H1.
  destruct k as [|k]; [injection E1 as <-; injection E2 as <-; exact H1|]. exact (IH H2 k x' y' E1 E2).
Qed.
Lemma consecutive : forall p j, need_permute (Some j :: p) = false -> somes (Some j :: p) = seq j (S (length p)).
Proof.
  induction p as [|y p IH]; intros j H; [reflexivity|]. cbn [need_permute] in H. apply orb_false_iff in H as [H1 H2]. apply negb_false_iff, Z.eqb_eq in H1. destruct y as [y|]; cbn [code] in H1; [|lia]. assert (y = S j) by lia. subst y.
  specialize (IH (S j) H2). cbn in IH |- *. fold (somes p) in *. rewrite IH. reflexivity.
Qed.
Lemma no_permute p n : need_permute p = false -> Permutation (somes p) (seq 0 n) -> somes p = seq 0 n.
Proof.
  intros H HP. assert (Hl : length (somes p) = n) by (rewrite (Permutation_length HP); apply seq_length). destruct p as [|x p]; [cbn in *; subst n; reflexivity|]. destruct x as [j|].
  - pose proof (consecutive p j H) as E. rewrite E in Hl, HP |- *. rewrite seq_length in Hl. subst n. f_equal. assert (In 0 (seq j (S (length p)))) as H0 by (rewrite HP; left; reflexivity). apply in_seq in H0. lia.
  - cbn [somes flat_map app] in *. fold (somes p) in *. destruct p as [|y p]; [cbn in *; subst n; reflexivity|]. cbn [need_permute] in H. apply orb_false_iff in H as [H1 H2]. apply negb_false_iff, Z.eqb_eq in H1. destruct y as [y|]; cbn [code] in H1; [|lia].
    assert (y = 0) by lia. subst y. rewrite (consecutive p 0 H2) in *. rewrite seq_length in Hl. subst n. reflexivity.
Qed.
Lemma extend_full : forall p s, length (somes p) = length p -> length s = length p -> extend_shape p s = s.
Proof.
  assert (L : forall q : list (option nat), length (somes q) <= length q) by (induction q as [|[j|] q IH]; cbn; try fold (somes q); lia).
  induction p as [|[j|] p IH]; intros s H Hs; cbn in H; try fold (somes p) in H.
  - destruct s; [reflexivity|discriminate].
  - destruct s as [|n s]; [discriminate|]. cbn. injection H as H. injection Hs as Hs. rewrite IH by assumption. reflexivity.
  - specialize (L p). lia.
Qed.
Lemma extend_ok t ds p : well size t -> NoDup (bases ds) -> a_permutation (dims t) ds p ->
  exists r, permute_and_extend t (length ds) p = Ok r /\ stands size ds (dims t) (value t) r /\ length (shape r) = length ds.
Proof.
  intros Hw Hd HP. destruct Hw as (Hs & Hda & Hn). destruct (proj1 (fits_permutation _ _ _) HP) as (Hf & Hperm). assert (Hlo : length (dims t) = length (shape (traw t))) by (rewrite Hs, map_length, bases_len; reflexivity).
  assert (Hr1 : exists r1, (if need_permute p then permute (traw t) (somes p) else Ok (traw t)) = Ok r1 /\ permuted size (dims t) (traw t) p r1).
  { destruct (need_permute p) eqn:En; [apply permute_ok; assumption|]. exists (traw t). split; [reflexivity|]. apply permuted_id; [exact Hlo|exact Hda|]. apply no_permute; assumption. }
  destruct Hr1 as (r1 & E1 & H1). unfold permute_and_extend. rewrite E1. cbn [bind]. destruct (extended_stands size (dims t) (traw t) p ds r1 Hs HP Hd H1) as (r2 & E2 & H2).
  destruct (Nat.ltb_spec (length (dims t)) (length ds)) as [Hlt|Hge]; [exists r2; split; [exact E2|exact H2]|]. exists r1. split; [reflexivity|].
  assert (Hlp : length p = length ds) by apply HP. assert (Hsp : length (somes p) = length (dims t)) by (rewrite (Permutation_length Hperm); apply seq_length).
  assert (Hle : length (somes p) <= length p). { clear. induction p as [|[j|] q IH]; cbn; try fold (somes q); lia. }
  rewrite extend_full in E2; [|lia|rewrite (proj1 H1), map_length; lia]. unfold reshape in E2. rewrite Nat.eqb_refl in E2. injection E2 as <-. destruct r1; exact H2.
Qed.
Lemma subset_fast_spec : forall sup sub i p, subset_fast sub i sup = Some p -> somes p = seq i (length sub) /\
  Forall2 (fun o d => match o with Some j => i <= j /\ nth_error sub (j - i) = Some d | None => True end) p sup.
Proof.
  induction sup as [|b sup IH]; intros sub i p H; cbn in H.
  - destruct sub; [|discriminate]. injection H as <-. split; [reflexivity|constructor].
  - destruct sub as [|a sub].
    + destruct (subset_fast [] i sup) as [q|] eqn:E; [|discriminate]. injection H as <-. apply IH in E as (E1 & E2). split; [exact E1|]. constructor; [exact I|exact E2].
    + destruct (same a b) eqn:Es.
      * apply same_eq in Es. subst b. destruct (subset_fast sub (S i) sup) as [q|] eqn:E; [|discriminate]. injection H as <-. apply IH in E as (E1 & E2). cbn. fold (somes q). rewrite E1. split; [reflexivity|]. constructor; [rewrite Nat.sub_diag; auto|].
        eapply Forall2_impl'; [|exact E2]. intros [j|] d Hj; [|exact I]. destruct Hj as [Hj1 Hj2]. split; [lia|]. replace (j - i) with (S (j - S i)) by lia. exact Hj2.
      * destruct (subset_fast (a :: sub) i sup) as [q|] eqn:E; [|discriminate]. injection H as <-. apply IH in E as (E1 & E2). split; [exact E1|]. constructor; [exact I|exact E2].
Qed.
Lemma subset_fast_permutation sub sup p : subset_fast sub 0 sup = Some p -> a_permutation sub sup p.
Proof.
  intros H. apply subset_fast_spec in H as (E1 & E2). apply fits_permutation. split; [|rewrite E1; apply Permutation_refl]. eapply Forall2_impl'; [|exact E2]. intros [j|] d Hj; [|exact I]. destruct Hj as [_ Hj]. rewrite Nat.sub_0_r in Hj. exists d. auto.
Qed.
Lemma find_fast_spec d taken : forall sub i j, find_fast d taken i sub = Some j -> i <= j /\ ~ In j taken /\ nth_error sub (j - i) = Some d.
Proof.
  induction sub as [|a sub IH]; intros i j H; cbn in H; [discriminate|]. destruct (inb i taken) eqn:Ei; cbn in H; [|destruct (same a d) eqn:Es].
  - apply IH in H as (H1 & H2 & H3). split; [lia|]. split; [exact H2|]. replace (j - i) with (S (j - S i)) by lia. exact H3.
  - injection H as <-. apply inb_false in Ei. apply same_eq in Es. subst a. rewrite Nat.sub_diag. auto.
  - apply IH in H as (H1 & H2 & H3). split; [lia|]. split; [exact H2|]. replace (j - i) with (S (j - S i)) by lia. exact H3.
Qed.
Lemma reorder_spec sub : forall sup taken p t, NoDup taken -> (forall j, In j taken -> j < length sub) -> reorder_loop sub taken sup = (p, t) ->
  t = rev (somes p) ++ taken /\ fits sub p sup /\ NoDup t /\ (forall j, In j t -> j < length sub).
Proof.
  induction sup as [|b sup IH]; intros taken p t Hn Hb H; cbn [reorder_loop] in H; [injection H as <- <-; repeat split; try assumption; constructor|].
  destruct (find_fast b taken 0 sub) as [j|] eqn:Ec.
  - destruct (reorder_loop sub (j :: taken) sup) as [p' t'] eqn:Ep. injection H as <- <-. apply find_fast_spec in Ec as (_ & Hj & Eo). rewrite Nat.sub_0_r in Eo. assert (Hjl : j < length sub) by (apply nth_error_Some; congruence).
    apply IH in Ep as (-> & Hf & Hn' & Hb'); [|constructor; assumption|intros x [<-|Hx]; auto]. cbn. fold (somes p'). rewrite <- app_assoc. split; [reflexivity|]. split; [|split; assumption]. constructor; [exists b; auto|exact Hf].
  - destruct (reorder_loop sub taken sup) as [p' t'] eqn:Ep. injection H as <- <-. apply IH in Ep as (-> & Hf & Hn' & Hb'); [|assumption|assumption]. split; [reflexivity|]. split; [constructor; [exact I|exact Hf]|]. split; assumption.
Qed.
Lemma reorder_fast_permutation sub sup p : subset_reorder_fast sub sup = Some p -> a_permutation sub sup p.
Proof.
  unfold subset_reorder_fast. destruct (length sup <? length sub); [discriminate|]. destruct (reorder_loop sub [] sup) as [q t] eqn:E. destruct (forallb _ _) eqn:Ef; [|discriminate]. intros H. injection H as ->.
  apply reorder_spec in E as (-> & Hf & Hn & Hb); [|constructor|intros j []]. rewrite app_nil_r in *. apply fits_permutation. split; [exact Hf|]. rewrite (Permutation_rev (somes p)). apply all_taken; [exact Hn|exact Hb|].
  rewrite <- (seq_length (length sub) 0) at 1. apply NoDup_incl_length; [apply seq_NoDup|]. intros j Hj. rewrite forallb_forall in Ef. apply inb_In, Ef, Hj.
Qed.
Lemma native_permutation_ok own ds : NoDup (bases own) -> NoDup (bases ds) -> incl (bases own) (bases ds) -> exists p, native_permutation own ds = Ok p /\ a_permutation own ds p.
Proof.
  intros Hn Hd Hi. unfold native_permutation. destruct (subset_fast own 0 ds) as [p|] eqn:E1; [exists p; split; [reflexivity|apply subset_fast_permutation, E1]|].
  destruct (subset_reorder_fast own ds) as [p|] eqn:E2; [exists p; split; [reflexivity|apply reorder_fast_permutation, E2]|].
  destruct (loop_complete own ds Hn Hd Hi) as (p & t & E & Hl). rewrite E. cbn [bind]. rewrite Hl, Nat.eqb_refl. exists p. split; [reflexivity|]. eapply loop_permutation; eassumption.
Qed.
Lemma native_permutation_spec own ds p : native_permutation own ds = Ok p -> a_permutation own ds p.
Proof.
  unfold native_permutation. destruct (subset_fast own 0 ds) as [q|] eqn:E1; [intros H; injection H as ->; apply subset_fast_permutation, E1|].
  destruct (subset_reorder_fast own ds) as [q|] eqn:E2; [intros H; injection H as ->; apply reorder_fast_permutation, E2|]. intros H. apply bind_Ok in H as ((q, t) & E & H). destruct (Nat.eqb_spec (length t) (length own)); [|discriminate]. injection H as ->. eapply loop_permutation; eassumption.
Qed.
End Compatible.

(** * The dims of the result *)
Lemma mem_In d l : mem d l = true <-> In (d_base d) (bases l).
Proof.
  unfold mem. rewrite existsb_exists. unfold bases. rewrite in_map_iff. split; intros (x & H1 & H2); exists x.
  - split; [apply deq_eq in H2; congruence|exact H1].
  - split; [exact H2|apply deq_eq; congruence].
Qed.
Lemma count_le1 d l : NoDup (bases l) -> count d l <= 1.
Proof.
  unfold count. induction l as [|x l IH]; intros H; cbn; [lia|]. cbn in H. apply NoDup_cons_iff in H as [Hx H]. specialize (IH H). destruct (deq d x) eqn:E; cbn; [|exact IH].
  apply deq_eq in E. assert (filter (deq d) l = []) as ->; [|cbn; lia]. clear IH H. induction l as [|y l IH]; [reflexivity|]. cbn in Hx |- *. destruct (deq d y) eqn:Ey; [apply deq_eq in Ey; exfalso; apply Hx; left; congruence|]. apply IH. intros H; apply Hx. right. exact H.
Qed.
Lemma bases_app l1 l2 : bases (l1 ++ l2) = bases l1 ++ bases l2.
Proof. apply map_app. Qed.
Lemma all_dims_spec a b : NoDup (bases a) -> NoDup (bases b) -> forall todo acc, NoDup (bases acc) ->
  NoDup (bases (all_dims_loop a b todo acc)) /\ (forall c, In c (bases (all_dims_loop a b todo acc)) <-> In c (bases acc) \/ In c (bases todo)) /\
  native_dims_loop a b todo acc = Ok (all_dims_loop a b todo acc) /\ (incl todo (all_dims_loop a b todo acc) \/ True) /\ exists more, all_dims_loop a b todo acc = acc ++ more.
Proof.
  intros Ha Hb. induction todo as [|d todo IH]; intros acc Hacc; [cbn; split; [exact Hacc|]; split; [tauto|]; split; [reflexivity|]; split; [right; exact I|exists []; rewrite app_nil_r; reflexivity]|]. cbn [all_dims_loop native_dims_loop].
  pose proof (count_le1 d a Ha). pose proof (count_le1 d b Hb). rewrite (proj2 (Nat.leb_le (count d a) 1)), (proj2 (Nat.leb_le (count d b) 1)) by lia. cbn [andb].
  destruct (mem d acc) eqn:Em.
  - apply mem_In in Em. destruct (IH acc Hacc) as (H1 & H2 & H3 & _ & H4). cbn [bind]. split; [exact H1|]. split; [|split; [exact H3|split; [right; exact I|exact H4]]]. intros c. rewrite H2. cbn. fold (bases todo). intuition (subst; auto).
  - assert (Hn : ~ In (d_base d) (bases acc)) by (rewrite <- mem_In, Em; discriminate). cbn [bind]. destruct (IH (acc ++ [d])) as (H1 & H2 & H3 & _ & more & H4).
    { rewrite bases_app. cbn. apply (Permutation_NoDup (l := d_base d :: bases acc)); [apply Permutation_cons_append|]. constructor; assumption. }
    split; [exact H1|]. split; [|split; [exact H3|split; [right; exact I|exists (d :: more); rewrite H4, <- app_assoc; reflexivity]]]. intros c. rewrite H2, bases_app, in_app_iff. cbn. fold (bases todo). intuition auto.
Qed.
Lemma all_dims_ok a b : NoDup (bases a) -> NoDup (bases b) -> NoDup (bases (all_dims a b)) /\ (forall c, In c (bases (all_dims a b)) <-> In c (bases a) \/ In c (bases b)) /\
  native_dims_loop a b (a ++ b) [] = Ok (all_dims a b).
Proof.
  intros Ha Hb. destruct (all_dims_spec a b Ha Hb (a ++ b) [] (NoDup_nil _)) as (H1 & H2 & H3 & _). split; [exact H1|]. split; [|exact H3]. intros c. unfold all_dims. rewrite H2, bases_app, in_app_iff. cbn. tauto.
Qed.
(** the dims of the first come first, in their order *)
Lemma all_dims_first a b : NoDup (bases a) -> NoDup (bases b) -> exists more, all_dims a b = a ++ more.
Proof.
  intros Ha Hb. unfold all_dims.
  assert (G : forall t1 t2 acc, NoDup (bases (acc ++ t1)) -> all_dims_loop a b (t1 ++ t2) acc = all_dims_loop a b t2 (acc ++ t1)).
  { induction t1 as [|d t1 IH]; intros t2 acc Hn; cbn [app all_dims_loop]; [rewrite app_nil_r; reflexivity|].
    pose proof (count_le1 d a Ha). pose proof (count_le1 d b Hb). rewrite (proj2 (Nat.leb_le (count d a) 1)), (proj2 (Nat.leb_le (count d b) 1)) by lia. cbn [andb].
    assert (Hm : mem d acc = false). { apply not_true_is_false. rewrite mem_In. intros Hin. rewrite bases_app in Hn. cbn in Hn. apply NoDup_remove_2 in Hn. apply Hn. apply in_or_app. left. exact Hin. }
    rewrite Hm. rewrite IH; rewrite <- app_assoc; [reflexivity|exact Hn]. }
  rewrite (G a b []) by exact Ha. destruct (all_dims_spec a b Ha Hb b ([] ++ a) Ha) as (_ & _ & _ & _ & more & H). exists more. exact H.
Qed.
Lemma same_set_spec a b : same_set a b = true <-> (incl (bases a) (bases b) /\ incl (bases b) (bases a)).
Proof.
  unfold same_set. rewrite andb_true_iff, !forallb_forall. unfold incl. split; intros [H1 H2]; split.
  - intros c Hc. unfold bases in Hc. apply in_map_iff in Hc as (d & <- & Hd). apply mem_In, H1, Hd.
  - intros c Hc. unfold bases in Hc. apply in_map_iff in Hc as (d & <- & Hd). apply mem_In, H2, Hd.
  - intros d Hd. apply mem_In, H1, in_map, Hd.
  - intros d Hd. apply mem_In, H2, in_map, Hd.
Qed.
Lemma one_has_all_spec a b : NoDup (bases (dims a)) -> NoDup (bases (dims b)) ->
  (negb (same_set (dims a) (all_dims (dims a) (dims b))) && negb (same_set (dims b) (all_dims (dims a) (dims b))) = false <-> one_has_all a b).
Proof.
  intros Ha Hb. destruct (all_dims_ok _ _ Ha Hb) as (_ & H & _). rewrite andb_false_iff, !negb_false_iff, !same_set_spec. unfold one_has_all, incl. split.
  - intros [[H1 H2]|[H1 H2]]; [right|left]; intros c Hc; apply H2, H; auto.
  - intros [H1|H1]; [right|left]; (split; intros c Hc; [apply H; auto|apply H in Hc as [Hc|Hc]; auto]).
Qed.
Lemma sorted_dims_perm o l : Permutation (bases (sorted_dims o l)) (bases l).
Proof. apply Permutation_map. apply stable_sort_perm. Qed.
Lemma dim_index_pos o d : dim_index o d = pos (d_base d) (bases o).
Proof. induction o as [|x o IH]; [reflexivity|]. cbn. unfold deq. destruct (d_base d =? d_base x); [reflexivity|]. rewrite IH. reflexivity. Qed.
Lemma sorted_dims_ordered o l : ordered o (sorted_dims o l).
Proof.
  unfold ordered. pose proof (stable_sort_sorted (fun d => Z.of_nat (dim_index o d)) l) as H. fold (sorted_dims o l) in H. unfold bases at 3. induction H as [|x l' H IH Hx]; cbn; constructor; [exact IH|].
  apply Forall_map. eapply Forall_impl; [|exact Hx]. intros y Hy. cbv beta in Hy. rewrite !dim_index_pos in Hy. lia.
Qed.

(** * Both variants *)
Section Combine.
Variable size : nat -> nat.
Variable op : Z -> Z -> Z.

Lemma finish a b all ra rb : NoDup (bases all) -> (forall c, In c (bases all) <-> In c (bases (dims a)) \/ In c (bases (dims b))) ->
  stands size all (dims a) (value a) ra -> stands size all (dims b) (value b) rb -> length (shape ra) = length all \/ length (shape rb) = length all ->
  exists r, map2 op ra rb = Ok r /\ elementwise size op a b {| dims := all; traw := r |}.
Proof.
  intros Hn Hc Ha Hb Hl. destruct (map2_ok size op all (dims a) (dims b) (value a) (value b) ra rb Ha Hb Hl) as (r & E & Hs & Hd & Hv); [intros c H; apply Hc, H|].
  exists r. split; [exact E|]. split; [repeat split; assumption|]. split; [exact Hc|exact Hv].
Qed.
Lemma combine_ok a b allow order : well size a -> well size b -> one_has_all a b \/ allow = Some true ->
  exists r, combine_tensors op a b allow order = Ok r /\ elementwise size op a b r /\ dims r = sorted_dims (order_of order) (all_dims (dims a) (dims b)).
Proof.
  intros Ha Hb Hall. pose proof (proj2 (proj2 Ha)) as Hna. pose proof (proj2 (proj2 Hb)) as Hnb. destruct (all_dims_ok _ _ Hna Hnb) as (Hn & Hc & _).
  unfold combine_tensors. set (all := all_dims (dims a) (dims b)) in *.
  assert (E : negb (same_set (dims a) all) && negb (same_set (dims b) all) && negb (match allow with Some true => true | _ => false end) = false).
  { destruct Hall as [H| ->]; [|apply andb_false_r]. apply (one_has_all_spec a b Hna Hnb) in H. fold all in H. rewrite H. reflexivity. }
  rewrite E. set (al := sorted_dims (order_of order) all). assert (HP : Permutation (bases al) (bases all)) by apply sorted_dims_perm.
  assert (Hn' : NoDup (bases al)) by (eapply Permutation_NoDup; [apply Permutation_sym, HP|exact Hn]).
  assert (Hc' : forall c, In c (bases al) <-> In c (bases (dims a)) \/ In c (bases (dims b))). { intros c. rewrite <- Hc. split; apply Permutation_in; [exact HP|apply Permutation_sym, HP]. }
  assert (G : forall t, well size t -> incl (bases (dims t)) (bases al) -> exists r, (if length (dims t) =? 0 then Ok (traw t) else compatible_raw t al) = Ok r /\ stands size al (dims t) (value t) r /\ (length (shape r) = length al \/ dims t = [] /\ shape r = [])).
  { intros t Ht Hi. destruct (Nat.eqb_spec (length (dims t)) 0) as [E0|E0].
    - apply length_zero_iff_nil in E0. exists (traw t). split; [reflexivity|]. split; [apply stands_scalar; assumption|]. right. split; [exact E0|]. rewrite (proj1 Ht), E0. reflexivity.
    - destruct (compatible_ok size t al Ht Hn' Hi) as (r & Er & Hr & Hl). exists r. auto. }
  destruct (G a Ha) as (ra & Ea & Hra & Hla); [intros c H; apply Hc'; auto|]. destruct (G b Hb) as (rb & Eb & Hrb & Hlb); [intros c H; apply Hc'; auto|]. rewrite Ea, Eb. cbn [bind].
  assert (Hlen : length (shape ra) = length al \/ length (shape rb) = length al).
  { destruct Hla as [Hla|[Ea0 Hla]]; [left; exact Hla|]. destruct Hlb as [Hlb|[Eb0 Hlb]]; [right; exact Hlb|]. left. rewrite Hla. rewrite <- bases_len. destruct (bases al) as [|c l] eqn:El; [reflexivity|]. exfalso. destruct (proj1 (Hc' c)) as [H|H]; [left; reflexivity|rewrite Ea0 in H; exact H|rewrite Eb0 in H; exact H]. }
  destruct (finish a b al ra rb Hn' Hc' Hra Hrb Hlen) as (r & Er & Hr). unfold combine_raw.
  assert (Eas : ((length (shape ra) =? length (shape rb)) || (length (shape ra) =? 0) || (length (shape rb) =? 0)) = true).
  { destruct Hla as [Hla|[_ Hla]]; [|rewrite Hla; cbn; apply orb_true_iff; left; apply orb_true_r]. destruct Hlb as [Hlb|[_ Hlb]]; [rewrite Hla, Hlb, Nat.eqb_refl; reflexivity|rewrite Hlb; apply orb_true_r]. }
  rewrite Eas. cbn [assert_ bind]. rewrite Er. cbn [bind]. eexists. split; [reflexivity|]. split; [exact Hr|reflexivity].
Qed.
Lemma combine_rejected a b allow order : well size a -> well size b -> ~ one_has_all a b -> allow <> Some true -> combine_tensors op a b allow order = Err ValueError.
Proof.
  intros Ha Hb Hno Hallow. pose proof (proj2 (proj2 Ha)) as Hna. pose proof (proj2 (proj2 Hb)) as Hnb. unfold combine_tensors.
  assert (E : negb (same_set (dims a) (all_dims (dims a) (dims b))) && negb (same_set (dims b) (all_dims (dims a) (dims b))) = true).
  { apply not_false_is_true. rewrite (one_has_all_spec a b Hna Hnb). exact Hno. }
  rewrite E. destruct allow as [[|]|]; [congruence|reflexivity|reflexivity].
Qed.

Lemma same_seq_eq : forall a b, same_seq a b = true -> a = b.
Proof.
  induction a as [|x a IH]; intros [|y b] H; try discriminate; [reflexivity|]. cbn in H. apply andb_true_iff in H as [H1 H2]. apply same_eq in H1. f_equal; [exact H1|apply IH, H2].
Qed.
Lemma permutation_incl own ds p : a_permutation own ds p -> incl (bases own) (bases ds).
Proof.
  intros (Hl & HP & H) c Hc. unfold bases in Hc. apply in_map_iff in Hc as (o & <- & Ho). apply In_nth_error in Ho as (j & Ej).
  assert (Hj : In j (somes p)). { rewrite HP. apply in_seq. assert (j < length own) by (apply nth_error_Some; congruence). lia. }
  unfold somes in Hj. apply in_flat_map in Hj as (x & Hx & Hjx). destruct x as [j'|]; [|destruct Hjx]. destruct Hjx as [->|[]]. apply In_nth_error in Hx as (k & Ek).
  destruct (nth_error ds k) as [d|] eqn:Ed; [|apply nth_error_None in Ed; assert (k < length p) by (apply nth_error_Some; congruence); lia].
  destruct (H k j d Ek Ed) as (o' & Eo' & Eb). assert (o' = o) by congruence. subst o'. rewrite Eb. apply in_map. eapply nth_error_In, Ed.
Qed.
(** where the dims of the result come from *)
Definition native_order (order : option (list dim)) (ds : list dim) (a b : tensor) : Prop :=
  (ds = dims a \/ ds = dims b) /\ match order with None => True | Some o => ds = o end \/
  ds = match order with Some o => sorted_dims o (all_dims (dims a) (dims b)) | None => all_dims (dims a) (dims b) end.
Lemma native_ok a b allow order : well size a -> well size b ->
  exists r, native_combine op a b allow order = Ok r /\ elementwise size op a b r /\ native_order order (dims r) a b.
Proof.
  intros Ha Hb. pose proof (proj2 (proj2 Ha)) as Hna. pose proof (proj2 (proj2 Hb)) as Hnb. unfold native_combine.
  set (order_is := fun ds => match order with None => true | Some o => same_seq ds o end).
  change (match order with Some o => same_seq (dims a) o | None => true end) with (order_is (dims a)). change (match order with Some o => same_seq (dims b) o | None => true end) with (order_is (dims b)).
  assert (Ho : forall ds, order_is ds = true -> match order with None => True | Some o => ds = o end) by (intros ds; unfold order_is; destruct order; [apply same_seq_eq|auto]).
  assert (Gsub : forall p, a_permutation (dims b) (dims a) p -> order_is (dims a) = true ->
    exists r, (let* rb := permute_and_extend b (length (dims a)) p in let* r := map2 op (traw a) rb in Ok {| dims := dims a; traw := r |}) = Ok r /\ elementwise size op a b r /\ native_order order (dims r) a b).
  { intros p Hp Hoi. destruct (extend_ok size b (dims a) p Hb Hna Hp) as (rb & Erb & Hrb & Hlb). rewrite Erb. cbn [bind]. destruct (stands_self size a Ha) as (Hra & Hla).
    destruct (finish a b (dims a) (traw a) rb Hna) as (r & Er & Hr); try assumption; [|left; exact Hla|].
    - intros c. split; [auto|]. intros [H|H]; [exact H|]. exact (permutation_incl _ _ _ Hp c H).
    - rewrite Er. cbn [bind]. eexists. split; [reflexivity|]. split; [exact Hr|]. left. split; [left; reflexivity|exact (Ho _ Hoi)]. }
  assert (Gsub' : forall p, a_permutation (dims a) (dims b) p -> order_is (dims b) = true ->
    exists r, (let* ra := permute_and_extend a (length (dims b)) p in let* r := map2 op ra (traw b) in Ok {| dims := dims b; traw := r |}) = Ok r /\ elementwise size op a b r /\ native_order order (dims r) a b).
  { intros p Hp Hoi. destruct (extend_ok size a (dims b) p Ha Hnb Hp) as (ra & Era & Hra & Hla). rewrite Era. cbn [bind]. destruct (stands_self size b Hb) as (Hrb & Hlb).
    destruct (finish a b (dims b) ra (traw b) Hnb) as (r & Er & Hr); try assumption; [|right; exact Hlb|].
    - intros c. split; [auto|]. intros [H|H]; [|exact H]. exact (permutation_incl _ _ _ Hp c H).
    - rewrite Er. cbn [bind]. eexists. split; [reflexivity|]. split; [exact Hr|]. left. split; [right; reflexivity|exact (Ho _ Hoi)]. }
  destruct (same_seq (dims a) (dims b) && order_is (dims a) || (length (dims b) =? 0) && order_is (dims a)) eqn:E1.
  { destruct (stands_self size a Ha) as (Hra & Hla). assert (Hoi : order_is (dims a) = true) by (apply orb_true_iff in E1 as [E1|E1]; apply andb_true_iff in E1; tauto).
    assert (Hcase : dims a = dims b \/ dims b = []). { apply orb_true_iff in E1 as [E1|E1]; apply andb_true_iff in E1 as [E1 _]; [left; apply same_seq_eq, E1|right; apply Nat.eqb_eq, length_zero_iff_nil in E1; exact E1]. }
    destruct (finish a b (dims a) (traw a) (traw b) Hna) as (r & Er & Hr); try assumption; [| |left; exact Hla|].
    - intros c. destruct Hcase as [<-|H]; [tauto|]. rewrite H. cbn. tauto.
    - destruct Hcase as [E|E]; [rewrite E; apply stands_self, Hb|apply stands_scalar; assumption].
    - rewrite Er. cbn [bind]. eexists. split; [reflexivity|]. split; [exact Hr|]. left. split; [left; reflexivity|exact (Ho _ Hoi)]. }
  destruct ((length (dims a) =? 0) && order_is (dims b)) eqn:E2.
  { apply andb_true_iff in E2 as [E2 Hoi]. apply Nat.eqb_eq, length_zero_iff_nil in E2. destruct (stands_self size b Hb) as (Hrb & Hlb).
    destruct (finish a b (dims b) (traw a) (traw b) Hnb) as (r & Er & Hr); try assumption; [|apply stands_scalar; assumption|right; exact Hlb|].
    - intros c. rewrite E2. cbn. tauto.
    - rewrite Er. cbn [bind]. eexists. split; [reflexivity|]. split; [exact Hr|]. left. split; [right; reflexivity|exact (Ho _ Hoi)]. }
  destruct (if order_is (dims a) then subset_fast (dims b) 0 (dims a) else None) as [p|] eqn:E3.
  { assert (Hoi : order_is (dims a) = true) by (destruct (order_is (dims a)); [reflexivity|discriminate]). rewrite Hoi in E3. apply (Gsub p); [apply (subset_fast_permutation size), E3|exact Hoi]. }
  destruct (if order_is (dims b) then subset_fast (dims a) 0 (dims b) else None) as [p|] eqn:E4.
  { assert (Hoi : order_is (dims b) = true) by (destruct (order_is (dims b)); [reflexivity|discriminate]). rewrite Hoi in E4. apply (Gsub' p); [apply (subset_fast_permutation size), E4|exact Hoi]. }
  destruct (if order_is (dims a) then subset_reorder_fast (dims b) (dims a) else None) as [p|] eqn:E5.
  { assert (Hoi : order_is (dims a) = true) by (destruct (order_is (dims a)); [reflexivity|discriminate]). rewrite Hoi in E5. apply (Gsub p); [apply (reorder_fast_permutation size), E5|exact Hoi]. }
  destruct (if order_is (dims b) then subset_reorder_fast (dims a) (dims b) else None) as [p|] eqn:E6.
  { assert (Hoi : order_is (dims b) = true) by (destruct (order_is (dims b)); [reflexivity|discriminate]). rewrite Hoi in E6. apply (Gsub' p); [apply (reorder_fast_permutation size), E6|exact Hoi]. }
  destruct (all_dims_ok _ _ Hna Hnb) as (Hn & Hc & Hnat). rewrite Hnat. cbn [bind].
  assert (Esub : is_subset_reorder (dims a) (all_dims (dims a) (dims b)) = true).
  { destruct (all_dims_first _ _ Hna Hnb) as (more & Em). rewrite Em. unfold is_subset_reorder. clear - Hna.
    assert (G : forall l2 l1 rest taken, dims a = l1 ++ l2 -> taken = rev (seq 0 (length l1)) -> exists p t, reorder_loop (dims a) taken (l2 ++ rest) = (p, t) /\ incl (seq 0 (length (dims a))) t).
    { induction l2 as [|d l2 IH]; intros l1 rest taken Ed Et.
      - cbn [app]. rewrite app_nil_r in Ed. subst l1. assert (Ht : incl (seq 0 (length (dims a))) taken) by (rewrite Et; intros j Hj; rewrite <- in_rev; exact Hj). clear Et. revert taken Ht.
        induction rest as [|x rest IHr]; intros taken Ht; cbn [reorder_loop]; [exists [], taken; auto|]. destruct (find_fast x taken 0 (dims a)) as [j|].
        + destruct (IHr (j :: taken)) as (p & t & E & Hi); [intros y Hy; right; apply Ht, Hy|]. rewrite E. eauto.
        + destruct (IHr taken Ht) as (p & t & E & Hi). rewrite E. eauto.
      - cbn [app reorder_loop]. assert (Ef : find_fast d taken 0 (dims a) = Some (length l1)).
        { rewrite Ed. assert (Hd : forall l i, (forall j, j < length l -> In (i + j) taken) -> ~ In (i + length l) taken -> find_fast d taken i (l ++ d :: l2) = Some (i + length l)).
          { induction l as [|x l IHl]; intros i H1 H2; cbn [app find_fast].
            - cbn [length] in H2 |- *. rewrite Nat.add_0_r in *. apply inb_false in H2. rewrite H2, same_refl. reflexivity.
            - assert (inb i taken = true) by (apply inb_In; rewrite <- (Nat.add_0_r i); apply H1; cbn; lia). rewrite H. cbn [negb andb]. cbn [length] in H2 |- *. rewrite IHl; [f_equal; lia| |replace (S i + length l) with (i + S (length l)) by lia; exact H2].
              intros j Hj. replace (S i + j) with (i + S j) by lia. apply H1. cbn. lia. }
          apply (Hd l1 0); rewrite Et; [intros j Hj; rewrite <- in_rev; apply in_seq; lia|rewrite <- in_rev, in_seq; lia]. }
        rewrite Ef. destruct (IH (l1 ++ [d]) rest (length l1 :: taken)) as (p & t & E & Hi); [rewrite <- app_assoc; exact Ed|rewrite app_length; cbn [length]; rewrite Nat.add_1_r, seq_S, rev_app_distr, Et; reflexivity|]. rewrite E. eauto. }
    unfold subset_reorder_fast. rewrite app_length. destruct (Nat.ltb_spec (length (dims a) + length more) (length (dims a))); [lia|]. destruct (G (dims a) [] more [] eq_refl eq_refl) as (p & t & E & Hi). rewrite E.
    assert (Ef : forallb (fun i => inb i t) (seq 0 (length (dims a))) = true) by (apply forallb_forall; intros j Hj; apply inb_In, Hi, Hj). rewrite Ef. reflexivity. }
  rewrite Esub. cbn [negb andb]. set (all := all_dims (dims a) (dims b)) in *. set (al := match order with Some o => sorted_dims o all | None => all end).
  assert (HP : Permutation (bases al) (bases all)) by (unfold al; destruct order; [apply sorted_dims_perm|apply Permutation_refl]).
  assert (Hn' : NoDup (bases al)) by (eapply Permutation_NoDup; [apply Permutation_sym, HP|exact Hn]).
  assert (Hc' : forall c, In c (bases al) <-> In c (bases (dims a)) \/ In c (bases (dims b))). { intros c. rewrite <- Hc. split; apply Permutation_in; [exact HP|apply Permutation_sym, HP]. }
  destruct (native_permutation_ok size (dims a) al Hna Hn') as (pa & Epa & Hpa); [intros c H; apply Hc'; auto|]. destruct (native_permutation_ok size (dims b) al Hnb Hn') as (pb & Epb & Hpb); [intros c H; apply Hc'; auto|].
  destruct (extend_ok size a al pa Ha Hn' Hpa) as (ra & Era & Hra & Hla). destruct (extend_ok size b al pb Hb Hn' Hpb) as (rb & Erb & Hrb & Hlb).
  rewrite Epa. cbn [bind]. rewrite Era. cbn [bind]. rewrite Epb. cbn [bind]. rewrite Erb. cbn [bind].
  destruct (finish a b al ra rb Hn' Hc' Hra Hrb (or_introl Hla)) as (r & Er & Hr). rewrite Er. cbn [bind]. eexists. split; [reflexivity|]. split; [exact Hr|]. right. reflexivity.
Qed.
End Combine.

(** * Numbers *)
Local Open Scope Z_scope.
Lemma mapM_one (f : Z -> res Z) g l : (forall x, In x l -> f x = Ok (g x)) -> mapM f l = Ok (map g l).
Proof. induction l as [|x l IH]; intros H; [reflexivity|]. cbn [mapM map]. rewrite H by (left; reflexivity). cbn [bind]. rewrite IH by (intros y Hy; apply H; right; exact Hy). reflexivity. Qed.
Lemma each_of (m : res (list Z)) : forall l, (let* l := m in Ok (Elements l)) = Ok (Elements l) <-> m = Ok l.
Proof. intros l. split; [intros H; apply bind_Ok in H as (l' & -> & H); congruence|intros ->; reflexivity]. Qed.
Lemma is_kind_In k ks : is_kind k ks = true <-> In k ks.
Proof. induction ks as [|x ks IH]; [cbn; split; [discriminate|tauto]|]. cbn. fold (is_kind k ks). rewrite orb_true_iff, IH. split; (intros [H|H]; [left|right; exact H]); [destruct k, x; (discriminate || reflexivity)|subst; destruct k; reflexivity]. Qed.
Lemma div_m1 x : x / -1 = - x.
Proof. pose proof (Z.div_opp_opp x 1 ltac:(lia)). pose proof (Z.div_1_r (- x)). pose proof (Z.div_opp_opp (- x) 1 ltac:(lia)). rewrite Z.opp_involutive in H1. change (- (1)) with (-1) in *. lia. Qed.

Definition shortcut_right (k : kind) (n : Z) : Prop := ~ (In k [KTrueDiv; KAnd; KOr] \/ k = KPow /\ n = -1).
Lemma right_same k a n : shortcut_right k n -> combine_right k a n = (let* l := mapM (fun x => sem k x n) a in Ok (Elements l)).
Proof.
  unfold shortcut_right, combine_right. intros H.
  assert (Hk : is_kind k [KTrueDiv] = false) by (apply not_true_is_false; rewrite is_kind_In; intros [<-|[]]; apply H; left; left; reflexivity).
  assert (Hl : is_kind k [KAnd; KOr] = false) by (apply not_true_is_false; rewrite is_kind_In; intros Hk'; apply H; left; right; exact Hk'). rewrite Hk, Hl, andb_false_r.
  destruct ((n =? 1) && is_kind k [KTrueDiv; KFloorDiv; KPow; KMul]) eqn:E1.
  { apply andb_true_iff in E1 as [E1 E2]. apply Z.eqb_eq in E1. subst n. apply is_kind_In in E2. rewrite (mapM_one _ (fun x => x)), map_id; [reflexivity|].
    intros x _. destruct E2 as [<-|[<-|[<-|[<-|[]]]]]; [discriminate|cbn; rewrite Z.div_1_r; reflexivity|cbn -[Z.pow]; rewrite Z.pow_1_r; reflexivity|cbn; rewrite Z.mul_1_r; reflexivity]. }
  destruct ((n =? -1) && is_kind k [KTrueDiv; KFloorDiv; KPow; KMul]) eqn:E2.
  { apply andb_true_iff in E2 as [E2 E3]. apply Z.eqb_eq in E2. subst n. apply is_kind_In in E3. rewrite (mapM_one _ Z.opp); [reflexivity|].
    intros x _. destruct E3 as [<-|[<-|[<-|[<-|[]]]]]; [discriminate|cbn -[Z.div]; rewrite div_m1; reflexivity|exfalso; apply H; right; auto|unfold sem; f_equal; lia]. }
  destruct ((n =? 0) && is_kind k [KAdd; KSub]) eqn:E3; [|reflexivity].
  apply andb_true_iff in E3 as [E3 E4]. apply Z.eqb_eq in E3. subst n. apply is_kind_In in E4. rewrite (mapM_one _ (fun x => x)), map_id; [reflexivity|].
  intros x _. destruct E4 as [<-|[<-|[]]]; unfold sem; f_equal; lia.
Qed.
Definition shortcut_left (k : kind) (n : Z) : Prop := ~ (In k [KTrueDiv; KAnd; KOr] \/ k = KPow /\ n = 1 \/ k = KSub /\ n = 0).
Lemma left_same k n b : shortcut_left k n -> combine_left k n b = (let* l := mapM (fun y => sem k n y) b in Ok (Elements l)).
Proof.
  unfold shortcut_left, combine_left. intros H.
  assert (Hk : is_kind k [KTrueDiv] = false) by (apply not_true_is_false; rewrite is_kind_In; intros [<-|[]]; apply H; left; left; reflexivity).
  assert (Hl : is_kind k [KAnd; KOr] = false) by (apply not_true_is_false; rewrite is_kind_In; intros Hk'; apply H; left; right; exact Hk'). rewrite Hk, Hl, andb_false_r.
  destruct ((n =? 1) && is_kind k [KPow]) eqn:E0.
  { exfalso. apply andb_true_iff in E0 as [E0 E1]. apply Z.eqb_eq in E0. apply is_kind_In in E1 as [<-|[]]. apply H. right. left. auto. }
  destruct ((n =? 1) && is_kind k [KMul]) eqn:E1.
  { apply andb_true_iff in E1 as [E1 E2]. apply Z.eqb_eq in E1. subst n. apply is_kind_In in E2 as [<-|[]]. rewrite (mapM_one _ (fun x => x)), map_id; [reflexivity|]. intros x _. unfold sem. f_equal. lia. }
  destruct ((n =? 0) && is_kind k [KAdd; KSub]) eqn:E3; [|reflexivity].
  apply andb_true_iff in E3 as [E3 E4]. apply Z.eqb_eq in E3. subst n. apply is_kind_In in E4 as [<-|[<-|[]]]; [|exfalso; apply H; right; right; auto]. rewrite (mapM_one _ (fun x => x)), map_id; [reflexivity|]. intros x _. reflexivity.
Qed.
Lemma native_right_same k a n : k <> KTrueDiv -> native_right k a n = (let* l := mapM (fun x => sem k x n) a in Ok (Elements l)).
Proof. intros H. destruct k; (reflexivity || contradiction). Qed.
Lemma native_left_same k n b : k <> KTrueDiv -> native_left k n b = (let* l := mapM (fun y => sem k n y) b in Ok (Elements l)).
Proof. intros H. destruct k; (reflexivity || contradiction). Qed.
Lemma bool_mapM (f g : Z -> Z) l : Forall (fun x => x = 0 \/ x = 1) l -> f 0 = g 0 -> f 1 = g 1 -> map f l = map g l.
Proof. intros H H0 H1. apply map_ext_in. intros x Hx. rewrite Forall_forall in H. destruct (H x Hx) as [->| ->]; assumption. Qed.
Lemma and_right a n : Forall (fun x => x = 0 \/ x = 1) a -> combine_right KAnd a n = native_right KAnd a n.
Proof.
  intros H. unfold combine_right, native_right. cbn [is_kind existsb orb andb]. rewrite !andb_false_r. destruct (truth n) eqn:E; cbn [andb]; [|reflexivity].
  rewrite (mapM_one _ (fun x => of_bool (truth x && truth n))); [|reflexivity]. cbn [bind]. rewrite <- (map_id a) at 1. rewrite (bool_mapM (fun x => x) (fun x => of_bool (truth x && truth n)) a H); rewrite ?E; reflexivity.
Qed.
Lemma and_left n b : Forall (fun x => x = 0 \/ x = 1) b -> combine_left KAnd n b = native_left KAnd n b.
Proof.
  intros H. unfold combine_left, native_left. cbn [is_kind existsb orb andb]. rewrite !andb_false_r. destruct (truth n) eqn:E; cbn [andb]; [|reflexivity].
  rewrite (mapM_one _ (fun x => of_bool (truth n && truth x))); [|reflexivity]. cbn [bind]. rewrite <- (map_id b) at 1. rewrite (bool_mapM (fun x => x) (fun x => of_bool (truth n && truth x)) b H); rewrite ?E; reflexivity.
Qed.
Lemma or_right_0 a : combine_right KOr a 0 = native_right KOr a 0.
Proof. reflexivity. Qed.
Lemma or_left_0 b : combine_left KOr 0 b = native_left KOr 0 b.
Proof. reflexivity. Qed.
Lemma truediv_right a n l : combine_right KTrueDiv a n = Ok (Elements l) -> Forall2 (fun x q => q * n = x) a l.
Proof.
  unfold combine_right. destruct (n =? 1) eqn:E1; cbn [andb is_kind existsb orb].
  - intros H. injection H as ->. apply Z.eqb_eq in E1. subst n. induction l; constructor; [lia|assumption].
  - destruct (n =? -1) eqn:E2; cbn [andb].
    + intros H. injection H as <-. apply Z.eqb_eq in E2. subst n. induction a; cbn; constructor; [lia|assumption].
    + rewrite !andb_false_r. discriminate.
Qed.
Local Close Scope Z_scope.

(** * The order of the result *)
Lemma pos_app_r x l1 l2 : ~ In x l1 -> pos x (l1 ++ l2) = length l1 + pos x l2.
Proof. induction l1 as [|y l1 IH]; intros H; [reflexivity|]. cbn. destruct (Nat.eqb_spec x y); [exfalso; apply H; left; congruence|]. rewrite IH; [reflexivity|]. intros Hx. apply H. right. exact Hx. Qed.
Lemma pos_sorted l : NoDup l -> StronglySorted (fun x y => pos x l <= pos y l) l.
Proof.
  assert (G : forall l2 l1, NoDup (l1 ++ l2) -> StronglySorted (fun x y => pos x (l1 ++ l2) <= pos y (l1 ++ l2)) l2).
  { induction l2 as [|x l2 IH]; intros l1 H; constructor.
    - specialize (IH (l1 ++ [x])). rewrite <- app_assoc in IH. apply IH, H.
    - apply Forall_forall. intros y Hy. rewrite pos_app_r; [|apply NoDup_remove_2 in H; intros Hx; apply H, in_or_app; left; exact Hx].
      rewrite pos_app_r; [|intros Hx; apply (NoDup_disj _ _ H y Hx); right; exact Hy]. cbn. rewrite Nat.eqb_refl. lia. }
  intros H. apply (G l [] H).
Qed.
Lemma native_ordered size op a b order r : well size a -> well size b -> elementwise size op a b r -> native_order (Some order) (dims r) a b -> ordered order (dims r).
Proof.
  intros Ha Hb Hr [[_ H]|H]; [|rewrite H; apply sorted_dims_ordered]. unfold ordered. rewrite <- H. apply pos_sorted. apply Hr.
Qed.

(** * Identical dims *)
Lemma candidates_exact d taken : forall own j acc i, nth_error own i = Some d -> ~ In (j + i) taken -> NoDup own -> candidates d taken j own acc = [j + i].
Proof.
  induction own as [|o own IH]; intros j acc i Hi Ht Hn; [destruct i; discriminate|]. apply NoDup_cons_iff in Hn as [Ho Hn]. cbn [candidates]. destruct i as [|i].
  - cbn in Hi. injection Hi as ->. rewrite Nat.add_0_r in *. apply inb_false in Ht. rewrite Ht, same_refl. reflexivity.
  - cbn in Hi. replace (j + S i) with (S j + i) in * by lia. destruct (inb j taken); [apply IH; assumption|].
    destruct (same d o) eqn:E; [|apply IH; assumption]. apply same_eq in E. subst o. exfalso. apply Ho. eapply nth_error_In, Hi.
Qed.
Lemma loop_exact own : NoDup own -> forall ds taken, NoDup ds -> incl ds own -> (forall j d, In j taken -> nth_error own j = Some d -> ~ In d ds) ->
  exists p t, out_permutation_loop own taken ds = Ok (p, t) /\ length t = length ds + length taken /\ Forall2 (fun o d => exists j, o = Some j /\ nth_error own j = Some d) p ds.
Proof.
  intros Hn. induction ds as [|d ds IH]; intros taken Hd Hi Ht; [exists [], taken; split; [reflexivity|split; [reflexivity|constructor]]|]. apply NoDup_cons_iff in Hd as [Hdd Hd]. cbn [out_permutation_loop].
  assert (Hin : In d own) by (apply Hi; left; reflexivity). apply In_nth_error in Hin as (i & Ei). rewrite (candidates_exact d taken own 0 [] i Ei); [|intros Hc; apply (Ht i d Hc Ei); left; reflexivity|exact Hn]. cbn [choose bind Nat.add].
  destruct (IH (i :: taken) Hd) as (p & t & E & El & HF).
  - intros x Hx. apply Hi. right. exact Hx.
  - intros j x [<-|Hj] Ex Hx; [rewrite Ei in Ex; injection Ex as ->; contradiction|]. apply (Ht j x Hj Ex). right. exact Hx.
  - rewrite E. cbn [bind]. exists (Some i :: p), t. split; [reflexivity|]. split; [rewrite El; cbn [length]; lia|]. constructor; [exists i; auto|exact HF].
Qed.
Lemma permutation_exact own ds : NoDup own -> Permutation ds own -> exists p, out_permutation own ds = Ok p /\ Forall2 (fun o d => exists j, o = Some j /\ nth_error own j = Some d) p ds.
Proof.
  intros Hn HP. destruct (loop_exact own Hn ds []) as (p & t & E & El & HF); [eapply Permutation_NoDup; [apply Permutation_sym, HP|exact Hn]|intros x; apply Permutation_in, HP|intros j d []|].
  unfold out_permutation. rewrite E. cbn [bind]. rewrite El, Nat.add_0_r, (Permutation_length HP), Nat.eqb_refl. exists p. split; [reflexivity|exact HF].
Qed.

(** * Without an order *)
Lemma sorted_dims_none l : sorted_dims [] l = l.
Proof. unfold sorted_dims, stable_sort_by. induction l as [|d l IH]; [reflexivity|]. cbn [fold_right]. rewrite IH. destruct l as [|x l]; reflexivity. Qed.
Lemma all_dims_more a b : NoDup (bases a) -> NoDup (bases b) -> exists more, all_dims a b = a ++ more /\ incl more b.
Proof.
  intros Ha Hb. destruct (all_dims_first a b Ha Hb) as (more & E). exists more. split; [exact E|]. intros d Hd.
  assert (G : forall todo acc, incl (all_dims_loop a b todo acc) (acc ++ todo)).
  { induction todo as [|x todo IH]; intros acc y Hy; [rewrite app_nil_r; exact Hy|]. cbn [all_dims_loop] in Hy.
    pose proof (count_le1 x a Ha). pose proof (count_le1 x b Hb). rewrite (proj2 (Nat.leb_le (count x a) 1)), (proj2 (Nat.leb_le (count x b) 1)) in Hy by lia. cbn [andb] in Hy.
    destruct (mem x acc); apply IH in Hy; rewrite ?in_app_iff in *; cbn in *; tauto. }
  assert (Hin : In d (all_dims a b)) by (rewrite E; apply in_or_app; right; exact Hd). apply G in Hin. cbn in Hin. apply in_app_or in Hin as [Hin|Hin]; [|exact Hin]. exfalso.
  destruct (all_dims_ok a b Ha Hb) as (Hn & _). rewrite E, bases_app in Hn. apply (NoDup_disj _ _ Hn (d_base d)); apply in_map; assumption.
Qed.
Lemma combine_accepts size op a b allow order r : well size a -> well size b -> combine_tensors op a b allow order = Ok r -> one_has_all a b \/ allow = Some true.
Proof.
  intros Ha Hb H. pose proof (proj2 (proj2 Ha)) as Hna. pose proof (proj2 (proj2 Hb)) as Hnb. unfold combine_tensors in H.
  destruct (negb (same_set (dims a) (all_dims (dims a) (dims b))) && negb (same_set (dims b) (all_dims (dims a) (dims b)))) eqn:E.
  - right. destruct allow as [[|]|]; [reflexivity|discriminate|discriminate].
  - left. apply (one_has_all_spec a b Hna Hnb), E.
Qed.
