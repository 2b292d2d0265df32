From Coq Require Import Sorted.
From Verif Require Import Base ListLemmas PySort PySortProofs TensorModel TensorSpec TensorProofs MatmulModel MatmulSpec MatmulProofs ReshapeModel ReshapeSpec ReshapeProofs MSelModel MSelSpec.
Local Open Scope nat_scope.

(** * Flat masks *)
Definition count (l : list bool) : nat := length (filter (fun b => b) l).
Definition rank (l : list bool) (p : nat) : nat := count (firstn p l).
Lemma count_app a b : count (a ++ b) = count a + count b.
Proof. unfold count. rewrite filter_app, app_length. reflexivity. Qed.
Lemma rank_0 l : rank l 0 = 0.
Proof. reflexivity. Qed.
Lemma rank_cons c l p : rank (c :: l) (S p) = (if c then 1 else 0) + rank l p.
Proof. unfold rank, count. cbn. destruct c; reflexivity. Qed.
Lemma rank_S : forall l p, rank l (S p) = rank l p + (if nth p l false then 1 else 0).
Proof.
  induction l as [|c l IH]; intros p; [destruct p; reflexivity|]. destruct p as [|p]; [rewrite rank_cons; cbn [nth]; rewrite !rank_0; destruct c; reflexivity|].
  rewrite rank_cons, IH, rank_cons. cbn [nth]. lia.
Qed.
Lemma rank_le l p q : p <= q -> rank l p <= rank l q.
Proof. induction 1 as [|q H IH]; [lia|]. rewrite rank_S. lia. Qed.
Lemma rank_lt l p q : nth p l false = true -> p < q -> rank l p < rank l q.
Proof. intros Hp Hq. pose proof (rank_le l (S p) q Hq). rewrite rank_S, Hp in H. lia. Qed.
Lemma rank_lt_iff l p q : nth p l false = true -> nth q l false = true -> (rank l p < rank l q <-> p < q).
Proof.
  intros Hp Hq. split; [|apply rank_lt, Hp]. intros H. destruct (lt_dec p q) as [L|L]; [exact L|]. pose proof (rank_le l q p ltac:(lia)). lia.
Qed.
Lemma on_lt l p : nth p l false = true -> p < length l.
Proof. intros H. destruct (lt_dec p (length l)) as [L|L]; [exact L|]. rewrite nth_overflow in H by lia. discriminate. Qed.
Lemma filter_rank l : forall p, length (filter (fun q => nth q l false) (seq 0 p)) = rank l p.
Proof.
  induction p as [|p IH]; [reflexivity|]. rewrite seq_S, filter_app, app_length, IH, rank_S. cbn [filter plus]. destruct (nth p l false); reflexivity.
Qed.
Lemma nonzero_len l : length (torch_nonzero l) = count l.
Proof. unfold torch_nonzero. rewrite filter_rank. unfold rank. rewrite firstn_all. reflexivity. Qed.
Lemma rank_count l p : nth p l false = true -> rank l p < count l.
Proof. intros H. pose proof (rank_lt l p (length l) H (on_lt l p H)) as R. unfold rank at 2 in R. rewrite firstn_all in R. exact R. Qed.
Lemma nonzero_nth l p : nth p l false = true -> nth (rank l p) (torch_nonzero l) 0 = p.
Proof.
  intros H. pose proof (on_lt _ _ H) as L. unfold torch_nonzero. replace (length l) with (p + S (length l - p - 1)) by lia. rewrite seq_app, filter_app.
  rewrite app_nth2; rewrite filter_rank; [|lia]. rewrite Nat.sub_diag. cbn [seq filter plus]. rewrite H. reflexivity.
Qed.
Lemma nonzero_on l j : j < count l -> nth (nth j (torch_nonzero l) 0) l false = true /\ rank l (nth j (torch_nonzero l) 0) = j.
Proof.
  intros H. rewrite <- nonzero_len in H. pose proof (nth_In _ 0 H) as HI. pose proof HI as HI2. unfold torch_nonzero in HI. apply filter_In in HI as [_ Hn]. split; [exact Hn|].
  assert (HN : NoDup (torch_nonzero l)) by (apply NoDup_filter, seq_NoDup). apply (proj1 (NoDup_nth _ 0) HN); [rewrite nonzero_len; apply rank_count, Hn|exact H|]. apply nonzero_nth, Hn.
Qed.

(** the own [nonzero] *)
Lemma sorted_split {X} (key : X -> bool) : forall l, StronglySorted (fun x y => ((if key x then -1 else 0) <= (if key y then -1 else 0))%Z) l ->
  l = filter key l ++ filter (fun x => negb (key x)) l.
Proof.
  induction 1 as [|x l Hs IH Hf]; [reflexivity|]. cbn [filter]. destruct (key x) eqn:E; cbn [negb app]; [f_equal; exact IH|].
  assert (F : filter key l = []).
  { clear IH Hs. induction l as [|y l IHl]; [reflexivity|]. inversion Hf; subst. cbn. destruct (key y) eqn:Ey; [lia|]. apply IHl. assumption. }
  rewrite F. cbn [app]. f_equal. rewrite IH at 1. rewrite F. reflexivity.
Qed.
Lemma key_nth (l : list bool) i : nth i (map (fun b : bool => if b then -1 else 0)%Z l) 0%Z = (if nth i l false then -1 else 0)%Z.
Proof. exact (map_nth (fun b : bool => if b then -1 else 0)%Z l false i). Qed.
Lemma nonzero_ok l : nonzero l (count l) = torch_nonzero l.
Proof.
  unfold nonzero, argsort. set (key := fun i => nth i (map (fun b : bool => if b then -1 else 0)%Z l) 0%Z). rewrite map_length.
  destruct (stable_sort_spec key (seq 0 (length l))) as (_ & Hs & Hf). set (o := stable_sort_by key (seq 0 (length l))) in *.
  assert (Hs' : StronglySorted (fun x y => ((if nth x l false then -1 else 0) <= (if nth y l false then -1 else 0))%Z) o).
  { eapply StronglySorted_ind; [constructor| |exact Hs]. intros a m _ Hm Ha. constructor; [exact Hm|]. revert Ha. apply Forall_impl. intros b. unfold key. rewrite !key_nth. exact (fun h => h). }
  rewrite (sorted_split _ _ Hs'). assert (F : filter (fun x => nth x l false) o = torch_nonzero l).
  { unfold torch_nonzero. specialize (Hf (-1)%Z). unfold key in Hf. erewrite filter_ext; [rewrite Hf; apply filter_ext|]; intros a; cbn beta; rewrite key_nth; destruct (nth a l false); reflexivity. }
  rewrite F, firstn_app, nonzero_len, Nat.sub_diag. cbn [firstn]. rewrite app_nil_r, <- nonzero_len. apply firstn_all.
Qed.

(** * Scattering flat lists *)
Lemma scatter_flat_ok : forall old mask source, length old = length mask -> count mask <= length source ->
  exists r, scatter_flat old mask source = Ok r /\ length r = length old /\
    forall p, p < length old -> nth p r 0%Z = if nth p mask false then nth (rank mask p) source 0%Z else nth p old 0%Z.
Proof.
  induction old as [|x old IH]; intros [|b mask] source Hl Hc; try discriminate; [exists []; cbn; repeat split; lia|]. injection Hl as Hl. destruct b.
  - destruct source as [|y source]; [cbn in Hc; lia|]. cbn [scatter_flat]. destruct (IH mask source Hl) as (r & E & L & H); [cbn in Hc; unfold count; lia|]. rewrite E. cbn [bind]. eexists. split; [reflexivity|].
    split; [cbn; lia|]. intros [|p] Hp; [reflexivity|]. rewrite rank_cons. cbn [nth plus]. apply H. cbn in Hp. lia.
  - cbn [scatter_flat]. destruct (IH mask source Hl Hc) as (r & E & L & H). rewrite E. cbn [bind]. eexists. split; [reflexivity|]. split; [cbn; lia|].
    intros [|p] Hp; [reflexivity|]. rewrite rank_cons. cbn [nth plus]. apply H. cbn in Hp. lia.
Qed.
Lemma scatter_flat_few : forall old mask source, length old = length mask -> length source < count mask -> scatter_flat old mask source = Err OtherException.
Proof.
  induction old as [|x old IH]; intros [|b mask] source Hl Hc; try discriminate; [cbn in Hc; lia|]. injection Hl as Hl. destruct b; cbn [scatter_flat].
  - destruct source as [|y source]; [reflexivity|]. rewrite IH; [reflexivity|exact Hl|cbn in Hc; unfold count; lia].
  - rewrite IH; [reflexivity|exact Hl|exact Hc].
Qed.
(** each entry of the mask [n] times *)
Definition blocks (n : nat) (l : list bool) : list bool := flat_map (fun b => repeat b n) l.
Lemma count_repeat b n : count (repeat b n) = if b then n else 0.
Proof. induction n as [|n IH]; [destruct b; reflexivity|]. cbn. unfold count in *. cbn. destruct b; cbn; lia. Qed.
Lemma blocks_len n : forall l, length (blocks n l) = length l * n.
Proof. induction l as [|b l IH]; [reflexivity|]. cbn. unfold blocks in IH. rewrite app_length, repeat_length, IH. lia. Qed.
Lemma blocks_count n : forall l, count (blocks n l) = count l * n.
Proof.
  induction l as [|b l IH]; [reflexivity|]. change (blocks n (b :: l)) with (repeat b n ++ blocks n l). rewrite count_app, IH, count_repeat. unfold count. cbn. destruct b; cbn; lia.
Qed.
Lemma firstn_repeat {X} (b : X) : forall q n, q <= n -> firstn q (repeat b n) = repeat b q.
Proof. induction q as [|q IH]; intros [|n] H; try lia; try reflexivity. cbn. f_equal. apply IH. lia. Qed.
Lemma blocks_rank n q : q < n -> forall l a, a < length l -> rank (blocks n l) (a * n + q) = rank l a * n + (if nth a l false then q else 0).
Proof.
  intros Hq. induction l as [|b l IH]; intros a Ha; [cbn in Ha; lia|]. change (blocks n (b :: l)) with (repeat b n ++ blocks n l). destruct a as [|a].
  - unfold rank. rewrite firstn_app, repeat_length. replace (0 * n + q - n) with 0 by lia. cbn [firstn]. rewrite app_nil_r. cbn [Nat.mul plus nth]. rewrite firstn_repeat by lia. rewrite count_repeat. reflexivity.
  - rewrite rank_cons. cbn [nth]. unfold rank at 1. rewrite firstn_app, repeat_length. rewrite firstn_all2 by (rewrite repeat_length; nia). rewrite count_app, count_repeat.
    replace (S a * n + q - n) with (a * n + q) by lia. fold (rank (blocks n l) (a * n + q)). rewrite IH by (cbn in Ha; lia). destruct b; lia.
Qed.
Lemma blocks_nth n q : q < n -> forall l a, nth (a * n + q) (blocks n l) false = nth a l false.
Proof.
  intros Hq. induction l as [|b l IH]; intros a; [cbn; destruct (a * n + q), a; reflexivity|]. change (blocks n (b :: l)) with (repeat b n ++ blocks n l). destruct a as [|a].
  - rewrite app_nth1 by (rewrite repeat_length; lia). cbn [Nat.mul plus]. rewrite (nth_indep _ false b) by (rewrite repeat_length; lia). apply nth_repeat.
  - rewrite app_nth2 by (rewrite repeat_length; nia). rewrite repeat_length. replace (S a * n + q - n) with (a * n + q) by lia. apply IH.
Qed.

(** * Numberings *)
Lemma numbering_unique size P ds k n k' n' : numbering size P ds k n -> numbering size P ds k' n' ->
  n = n' /\ forall env, inside size env ds -> P env -> k env = k' env.
Proof.
  assert (M : forall k n k' n', numbering size P ds k n -> numbering size P ds k' n' -> forall env, inside size env ds -> P env -> k env = k' env).
  { clear. intros k n k' n' (B & O & S) (B' & O' & S') env. remember (k env) as j eqn:Ej. revert env Ej. induction j as [j IH] using lt_wf_ind. intros env -> Hi Ho.
    destruct (lt_eq_lt_dec (k env) (k' env)) as [[L|E]|L]; [|exact E|].
    - destruct (S' (k env)) as (e & He & Hoe & Ee); [pose proof (B' env Hi Ho); lia|]. assert (Pos : position size ds e 0 < position size ds env 0) by (apply O'; auto; lia).
      apply O in Pos; auto. pose proof (IH (k e) Pos e eq_refl He Hoe). lia.
    - destruct (S (k' env)) as (e & He & Hoe & Ee); [pose proof (B env Hi Ho); lia|]. assert (Pos : position size ds e 0 < position size ds env 0) by (apply O; auto; lia).
      pose proof (IH (k' env) L e (eq_sym Ee) He Hoe) as H. apply O' in Pos; auto. lia. }
  intros H H'. split; [|eapply M; eassumption]. pose proof (M _ _ _ _ H H') as E. destruct H as (B & _ & S), H' as (B' & _ & S').
  destruct (lt_eq_lt_dec n n') as [[L|L]|L]; [|exact L|].
  - destruct (S' n L) as (e & He & Ho & Ee). pose proof (B e He Ho). rewrite (E e He Ho) in H. lia.
  - destruct (S n' L) as (e & He & Ho & Ee). pose proof (B' e He Ho). rewrite <- (E e He Ho) in H. lia.
Qed.

Section WithSize.
Context (size : nat -> nat).

Definition env_of (ds : list dim) (p : nat) : nat -> nat := over (bases ds) (unflat (sizes size ds) p) (fun _ => 0).
Definition bits (mask : tensor) (ds : list dim) : list bool := map (fun p => negb (value mask (env_of ds p) =? 0)%Z) (seq 0 (prod (sizes size ds))).
Definition number (mask : tensor) (ds : list dim) (env : nat -> nat) : nat := rank (bits mask ds) (position size ds env 0).

Lemma env_of_map ds p : NoDup (bases ds) -> map (env_of ds p) (bases ds) = unflat (sizes size ds) p.
Proof. intros H. unfold env_of. apply over_in; [exact H|]. rewrite unflat_len. unfold sizes. apply map_length. Qed.
Lemma env_of_inside ds p : NoDup (bases ds) -> p < prod (sizes size ds) -> inside size (env_of ds p) ds.
Proof. intros H Hp. apply (indexes_inside size). rewrite env_of_map by exact H. apply unflat_indexes, Hp. Qed.
Lemma env_of_position ds p : NoDup (bases ds) -> p < prod (sizes size ds) -> position size ds (env_of ds p) 0 = p.
Proof. intros H Hp. rewrite position_flat0, env_of_map by exact H. apply flat_unflat, Hp. Qed.
Lemma position_lt ds env : inside size env ds -> position size ds env 0 < prod (sizes size ds).
Proof. intros H. rewrite position_flat0. apply flat_lt, inside_indexes, H. Qed.
Lemma position_env ds env : NoDup (bases ds) -> inside size env ds -> forall c, In c (bases ds) -> env_of ds (position size ds env 0) c = env c.
Proof.
  intros Hn Hi. pose proof (env_of_map ds (position size ds env 0) Hn) as E. rewrite position_flat0, unflat_flat in E by (apply inside_indexes, Hi).
  rewrite position_flat0. revert E. generalize (env_of ds (flat (sizes size ds) (map env (bases ds)))). clear. intros f. induction (bases ds) as [|c l IH]; intros E x [].
  - injection E as E _. congruence.
  - injection E as _ E. apply IH; assumption.
Qed.
Lemma value_ext t e e' : (forall c, In c (bases (dims t)) -> e c = e' c) -> value t e = value t e'.
Proof. intros H. unfold value. f_equal. apply map_ext_in, H. Qed.
Lemma bits_len mask ds : length (bits mask ds) = prod (sizes size ds).
Proof. unfold bits. rewrite map_length, seq_length. reflexivity. Qed.
Lemma bits_nth0 mask ds p : p < prod (sizes size ds) -> nth p (bits mask ds) false = negb (value mask (env_of ds p) =? 0)%Z.
Proof.
  intros H. unfold bits. rewrite (nth_indep _ false (negb (value mask (env_of ds 0) =? 0)%Z)) by (rewrite map_length, seq_length; exact H).
  rewrite (map_nth (fun p => negb (value mask (env_of ds p) =? 0)%Z)). rewrite seq_nth by exact H. reflexivity.
Qed.

Context (mask : tensor) (ds : list dim) (Hm : well size mask) (HP : Permutation (bases ds) (bases (dims mask))).
Lemma ds_nodup : NoDup (bases ds).
Proof. eapply Permutation_NoDup; [apply Permutation_sym, HP|apply Hm]. Qed.
Lemma bits_nth env : inside size env ds -> nth (position size ds env 0) (bits mask ds) false = negb (value mask env =? 0)%Z.
Proof.
  intros Hi. rewrite bits_nth0 by (apply position_lt, Hi). do 2 f_equal. apply value_ext. intros c Hc. apply position_env; [apply ds_nodup|exact Hi|]. eapply Permutation_in; [apply Permutation_sym, HP|exact Hc].
Qed.
Lemma on_bit env : inside size env ds -> (on mask env <-> nth (position size ds env 0) (bits mask ds) false = true).
Proof. intros Hi. rewrite bits_nth by exact Hi. unfold on. rewrite negb_true_iff, Z.eqb_neq. reflexivity. Qed.
Lemma numbering_ok : numbering size (on mask) ds (number mask ds) (count (bits mask ds)).
Proof.
  split; [|split].
  - intros env Hi Ho. apply rank_count. apply on_bit; assumption.
  - intros e e' Hi Hi' Ho Ho'. apply rank_lt_iff; apply on_bit; assumption.
  - intros j Hj. destruct (nonzero_on _ _ Hj) as [Hn Hr]. set (p := nth j (torch_nonzero (bits mask ds)) 0) in *. pose proof (on_lt _ _ Hn) as L. rewrite bits_len in L.
    exists (env_of ds p). pose proof (env_of_inside ds p ds_nodup L) as Hi. split; [exact Hi|]. pose proof (env_of_position ds p ds_nodup L) as Ep. split; [apply on_bit; [exact Hi|rewrite Ep; exact Hn]|]. unfold number. rewrite Ep. exact Hr.
Qed.
End WithSize.

(** * Packing *)
Lemma compat_perm size t ds : well size t -> Permutation (bases ds) (bases (dims t)) ->
  exists r, compatible_raw t ds = Ok r /\ well size {| dims := ds; traw := r |} /\
    forall env, inside size env (dims t) -> value {| dims := ds; traw := r |} env = value t env.
Proof.
  intros Hw HP. destruct (transpose_ok size t ds Hw HP) as (r & E & H). exists r. split; [|exact H]. unfold transpose_to in E.
  destruct (assert_ (length ds =? length (dims t))); cbn in E; [|discriminate]. destruct (compatible_raw t ds) as [r'|]; cbn in E; [|discriminate]. injection E as ->. reflexivity.
Qed.
Lemma truths_bits size mask ds m : well size mask -> Permutation (bases ds) (bases (dims mask)) -> well size {| dims := ds; traw := m |} ->
  (forall env, inside size env (dims mask) -> value {| dims := ds; traw := m |} env = value mask env) -> truths m = bits size mask ds.
Proof.
  intros Hm HP (Hs & Hl & Hn) Hv. cbn [dims traw] in *. assert (Hlen : length (truths m) = prod (sizes size ds)) by (unfold truths; rewrite map_length, Hl, Hs; reflexivity).
  apply (nth_ext _ _ false false); [rewrite bits_len; exact Hlen|]. intros p Hp. rewrite Hlen in Hp. rewrite bits_nth0 by exact Hp. pose proof (env_of_inside size ds p Hn Hp) as Hi.
  rewrite <- Hv by (eapply inside_perm; [exact HP|exact Hi]). unfold value. cbn [dims traw]. rewrite env_of_map by exact Hn. unfold at_. rewrite Hs. fold (sizes size ds). rewrite flat_unflat by exact Hp.
  unfold truths. rewrite (nth_indep _ false (negb (0 =? 0)%Z)) by (rewrite map_length, Hl, Hs; exact Hp). apply (map_nth (fun x => negb (x =? 0)%Z)).
Qed.
Lemma rest_perm (t : list dim) (m : list dim) : NoDup (bases t) -> NoDup (bases m) -> incl (bases m) (bases t) ->
  Permutation (bases (m ++ filter (fun d => negb (mem d m)) t)) (bases t).
Proof.
  intros Ht Hm Hi. apply NoDup_Permutation; [|exact Ht|].
  - rewrite bases_app. apply NoDup_app_intro2; [exact Hm| |].
    + apply NoDup_bases_filter, Ht.
    + intros c H1 H2. apply in_filter_bases in H2 as (d & <- & _ & Hd). apply mem_In in H1. rewrite H1 in Hd. discriminate.
  - intros c. rewrite bases_app, in_app_iff. split.
    + intros [H|H]; [apply Hi, H|]. apply in_filter_bases in H as (d & <- & Hd & _). apply In_base, Hd.
    + intros H. destruct (in_dec Nat.eq_dec c (bases m)) as [HH|HH]; [left; exact HH|right]. unfold bases in H |- *. apply in_map_iff in H as (d & <- & Hd). apply in_map, filter_In. split; [exact Hd|].
      destruct (mem d m) eqn:E; [apply mem_In in E; contradiction|reflexivity].
Qed.

Lemma sizes_set size ds c n : ~ In c (bases ds) -> sizes (set_size size c n) ds = sizes size ds.
Proof. intros H. unfold sizes. apply map_ext_in. intros x Hx. unfold set_size. destruct (Nat.eqb_spec x c) as [->|]; [contradiction|reflexivity]. Qed.
Lemma set_size_same size c n : set_size size c n c = n.
Proof. unfold set_size. rewrite Nat.eqb_refl. reflexivity. Qed.
Lemma map_with_index env c k l : ~ In c l -> map (with_index env c k) l = map env l.
Proof. intros H. apply map_ext_in. intros x Hx. unfold with_index. destruct (Nat.eqb_spec x c) as [->|]; [contradiction|reflexivity]. Qed.
Lemma with_index_same env c k : with_index env c k c = k.
Proof. unfold with_index. rewrite Nat.eqb_refl. reflexivity. Qed.
Lemma not_rest (c : nat) P t : ~ In c (bases t) -> ~ In c (bases (filter P t)).
Proof. intros H Hc. apply in_filter_bases in Hc as (d & <- & Hd & _). apply H, In_base, Hd. Qed.

Lemma select_ok size t mask ds out known : well size t -> well size mask -> mask_dims mask ds -> incl (bases (dims mask)) (bases (dims t)) -> ~ In (d_base out) (bases (dims t)) ->
  (forall n, known = Some n -> n = count (bits size mask ds)) ->
  exists r, masked_select t mask ds out known = Ok r /\ selected size t mask ds out r (number size mask ds) (count (bits size mask ds)).
Proof.
  intros Ht Hm (HP & Hne) Hi Ho Hk. unfold masked_select. assert (Es : same_set (dims mask) ds = true) by (apply same_set_spec; split; intros c Hc; [eapply Permutation_in; [apply Permutation_sym, HP|exact Hc]|eapply Permutation_in; [exact HP|exact Hc]]).
  rewrite Es. cbn [assert_ bind]. set (rest := filter (fun d => negb (mem d (dims mask))) (dims t)).
  assert (HPt : Permutation (bases (ds ++ rest)) (bases (dims t))).
  { rewrite <- (rest_perm (dims t) (dims mask)); [|apply Ht|apply Hm|exact Hi]. rewrite !bases_app. apply Permutation_app_tail, HP. }
  destruct (compat_perm size t (ds ++ rest) Ht HPt) as (x & Ex & Hx & Hxv). rewrite Ex. cbn [bind]. destruct (compat_perm size mask ds Hm HP) as (m & Em & Hmw & Hmv). rewrite Em. cbn [bind].
  pose proof (truths_bits size mask ds m Hm HP Hmw Hmv) as Eb. destruct Hx as (Hxs & Hxl & Hxn), Hmw as (Hms & Hml & Hmn). cbn [dims traw] in *.
  rewrite bases_app, map_app in Hxs. fold (sizes size ds) in Hxs, Hms. fold (sizes size rest) in Hxs. unfold torch_masked_select. rewrite Eb, Hms, Hxs.
  assert (El : length (sizes size ds) = length ds) by (unfold sizes; rewrite map_length, bases_len; reflexivity).
  assert (E1 : (length (sizes size ds) <=? length (sizes size ds ++ sizes size rest)) = true) by (apply Nat.leb_le; rewrite app_length; lia). rewrite E1. cbn [assert_ bind].
  assert (E2 : forallb (fun i => nth i (sizes size ds ++ sizes size rest) 0 =? nth i (sizes size ds) 0) (seq 0 (length (sizes size ds))) = true).
  { apply forallb_forall. intros i Hin. apply in_seq in Hin. rewrite app_nth1 by lia. apply Nat.eqb_refl. }
  rewrite E2. cbn [assert_ bind]. rewrite nonzero_len.
  assert (E3 : match known with Some n => assert_ (count (bits size mask ds) =? n) | None => Ok tt end = Ok tt).
  { destruct known as [n|]; [|reflexivity]. rewrite (Hk n eq_refl), Nat.eqb_refl. reflexivity. }
  rewrite E3. cbn [bind]. destruct (length (sizes size ds)) as [|l] eqn:E4; [destruct ds; [contradiction|discriminate]|]. rewrite <- E4. clear E4 El E1 E2. clear l.
  rewrite firstn_app, Nat.sub_diag, firstn_all, skipn_app, Nat.sub_diag, skipn_all. cbn [firstn skipn app tl]. rewrite app_nil_r. eexists. split; [reflexivity|].
  assert (Hor : ~ In (d_base out) (bases rest)) by (apply not_rest, Ho).
  assert (Hrn : NoDup (bases rest)) by (apply NoDup_bases_filter, Ht).
  split; [apply numbering_ok; assumption|]. split; [|split; [reflexivity|]].
  - split; [|split; [apply tabulate_len|]]; cbn [dims traw shape tabulate bases map].
    + rewrite set_size_same. f_equal. fold (bases rest). fold (sizes (set_size size (d_base out) (count (bits size mask ds))) rest). rewrite sizes_set by exact Hor. reflexivity.
    + constructor; [exact Hor|exact Hrn].
  - intros env He Hon. unfold value at 1. cbn [dims traw bases map]. rewrite with_index_same. fold (bases rest). rewrite map_with_index by exact Hor.
    assert (Heo : inside size env (ds ++ rest)) by (eapply inside_perm; [apply Permutation_sym, HPt|exact He]). pose proof Heo as Hed. unfold inside in Hed. rewrite bases_app in Hed. apply Forall_app in Hed as [Hed Her].
    pose proof (proj1 (on_bit size mask ds Hm HP env Hed) Hon) as Hb. rewrite at_tabulate.
    2:{ constructor; [apply rank_count, Hb|]. apply inside_indexes, Her. }
    unfold number. rewrite nonzero_nth by exact Hb. unfold at_. cbn [shape data]. rewrite flat_cons, position_flat0.
    rewrite <- (Hxv env He). unfold value, at_. cbn [dims traw]. rewrite Hxs, bases_app, map_app, flat_app by (unfold sizes; rewrite !map_length; reflexivity). reflexivity.
Qed.

(** * Putting it back *)
Section Scatter.
Context (size : nat -> nat) (source mask : tensor) (ds : list dim) (in_ : dim) (m : nat).
Context (Hm : well size mask) (HP : Permutation (bases ds) (bases (dims mask))) (Hsrc : a_source size source mask in_ m).
Let rest := filter (fun d => negb (mem d (dims mask)) && negb (deq d in_)) (dims source).
Let R := prod (sizes size rest).
Lemma rest_spec c : In c (bases rest) <-> In c (bases (dims source)) /\ c <> d_base in_.
Proof.
  split.
  - intros H. apply in_filter_bases in H as (d & <- & Hd & E). apply andb_true_iff in E as [_ E]. split; [apply In_base, Hd|]. unfold deq in E. apply negb_true_iff, Nat.eqb_neq in E. exact E.
  - intros [H1 H2]. pose proof (proj2 (proj2 Hsrc) c H1) as Hn. unfold bases in H1. apply in_map_iff in H1 as (d & <- & Hd). apply In_base, filter_In. split; [exact Hd|]. apply andb_true_iff. split.
    + destruct (mem d (dims mask)) eqn:E; [apply mem_In in E; contradiction|reflexivity].
    + unfold deq. apply negb_true_iff, Nat.eqb_neq, H2.
Qed.
Lemma in_not_rest : ~ In (d_base in_) (bases rest).
Proof. intros H. apply rest_spec in H as [_ H]. apply H. reflexivity. Qed.
Lemma rest_nodup : NoDup (bases rest).
Proof. apply NoDup_bases_filter, Hsrc. Qed.
Lemma source_perm : Permutation (bases (in_ :: rest)) (bases (dims source)).
Proof.
  apply NoDup_Permutation; [constructor; [apply in_not_rest|apply rest_nodup]|apply Hsrc|]. intros c. cbn [bases map In]. fold (bases rest). rewrite rest_spec. split.
  - intros [<-|[H _]]; [apply Hsrc|exact H].
  - intros H. destruct (Nat.eq_dec c (d_base in_)); [left; congruence|right; auto].
Qed.
Lemma out_nodup : NoDup (bases (ds ++ rest)).
Proof.
  rewrite bases_app. apply NoDup_app_intro2; [eapply ds_nodup; eassumption|apply rest_nodup|]. intros c H1 H2. apply rest_spec in H2 as [H2 _]. apply (proj2 (proj2 Hsrc) c H2). eapply Permutation_in; [exact HP|exact H1].
Qed.
Lemma shape_of_sizes l : shape_of size l = sizes size l.
Proof. unfold shape_of, sizes, bases. rewrite map_map. reflexivity. Qed.
Lemma expand_at t r : stands size (ds ++ rest) (dims t) (value t) r -> forall env, inside size env (ds ++ rest) -> at_ (expand r (sizes size (ds ++ rest))) (map env (bases (ds ++ rest))) = value t env.
Proof. intros (_ & _ & _ & H) env Hi. unfold expand. rewrite at_tabulate by (apply inside_indexes, Hi). apply H, Hi. Qed.
Lemma out_split env : inside size env (ds ++ rest) -> inside size env ds /\ inside size env rest.
Proof. unfold inside. rewrite bases_app. apply Forall_app. Qed.
Lemma out_flat env : flat (sizes size (ds ++ rest)) (map env (bases (ds ++ rest))) = position size ds env 0 * R + flat (sizes size rest) (map env (bases rest)).
Proof. rewrite position_flat0, bases_app, map_app, sizes_app. apply flat_app. unfold sizes. rewrite !map_length. reflexivity. Qed.
Lemma mask_blocks r : stands size (ds ++ rest) (dims mask) (value mask) r -> truths (expand r (sizes size (ds ++ rest))) = blocks R (bits size mask ds).
Proof.
  intros H. assert (Hl : length (truths (expand r (sizes size (ds ++ rest)))) = prod (sizes size (ds ++ rest))) by (unfold truths, expand; rewrite map_length, tabulate_len; reflexivity).
  apply (nth_ext _ _ false false); [rewrite Hl, blocks_len, bits_len, sizes_app, prod_app; reflexivity|]. intros p Hp. rewrite Hl in Hp. pose proof (env_of_inside size _ p out_nodup Hp) as Hi. set (env := env_of size (ds ++ rest) p) in *.
  assert (Ep : p = flat (sizes size (ds ++ rest)) (map env (bases (ds ++ rest)))) by (unfold env; rewrite env_of_map by apply out_nodup; symmetry; apply flat_unflat, Hp).
  pose proof (expand_at mask r H env Hi) as Ea. unfold at_ in Ea. cbn [expand shape tabulate] in Ea. rewrite <- Ep in Ea. destruct (out_split env Hi) as [Hd Hr]. rewrite Ep at 2. rewrite out_flat, blocks_nth by (apply flat_lt, inside_indexes, Hr).
  rewrite (bits_nth size mask ds Hm HP env Hd). rewrite <- Ea. unfold truths. rewrite (nth_indep _ false (negb (0 =? 0)%Z)) by (rewrite map_length; unfold truths in Hl; rewrite map_length in Hl; rewrite Hl; exact Hp).
  apply (map_nth (fun x => negb (x =? 0)%Z)).
Qed.
Lemma backup_ok backup : a_backup size backup (ds ++ rest) -> exists o,
  match backup with
  | None => Ok (tabulate (shape_of size (ds ++ rest)) (fun _ => 0%Z))
  | Some b =>
      let* _ := assert_ (forallb (fun d => mem d (ds ++ rest)) (dims b)) in
      let* r := compatible_raw b (ds ++ rest) in
      Ok (expand r (shape_of size (ds ++ rest)))
  end = Ok o /\ shape o = sizes size (ds ++ rest) /\ length (data o) = prod (sizes size (ds ++ rest)) /\
  forall env, inside size env (ds ++ rest) -> at_ o (map env (bases (ds ++ rest))) = match backup with Some b => value b env | None => 0%Z end.
Proof.
  rewrite shape_of_sizes. destruct backup as [b|]; intros Hb.
  - destruct Hb as [Hw Hi]. assert (E : forallb (fun d => mem d (ds ++ rest)) (dims b) = true) by (apply forallb_forall; intros d Hd; apply mem_In, Hi, In_base, Hd). rewrite E. cbn [assert_ bind].
    destruct (compatible_ok size b (ds ++ rest) Hw out_nodup Hi) as (r & Er & Hst & _). rewrite Er. cbn [bind]. eexists. split; [reflexivity|]. split; [reflexivity|]. split; [apply tabulate_len|]. apply expand_at, Hst.
  - eexists. split; [reflexivity|]. split; [reflexivity|]. split; [apply tabulate_len|]. intros env Hi. apply at_tabulate, inside_indexes, Hi.
Qed.
Lemma scatter_steps backup : a_backup size backup (ds ++ rest) -> exists s o,
  well (set_size size (d_base in_) m) {| dims := in_ :: rest; traw := s |} /\
  (forall env, inside (set_size size (d_base in_) m) env (dims source) -> value {| dims := in_ :: rest; traw := s |} env = value source env) /\
  shape o = sizes size (ds ++ rest) /\ length (data o) = prod (sizes size (ds ++ rest)) /\
  (forall env, inside size env (ds ++ rest) -> at_ o (map env (bases (ds ++ rest))) = match backup with Some b => value b env | None => 0%Z end) /\
  scatter_at size source backup mask ds in_ =
    let* r := scatter_flat (data o) (blocks R (bits size mask ds)) (data s) in Ok {| dims := ds ++ rest; traw := {| shape := shape o; data := r |} |}.
Proof.
  intros Hb. unfold scatter_at. assert (Es : same_set (dims mask) ds = true) by (apply same_set_spec; split; intros c Hc; [eapply Permutation_in; [apply Permutation_sym, HP|exact Hc]|eapply Permutation_in; [exact HP|exact Hc]]).
  rewrite Es. cbn [assert_ bind]. rewrite (proj2 (mem_In in_ (dims source)) (proj1 (proj2 Hsrc))). cbn [assert_ bind]. fold rest.
  destruct (compat_perm _ source (in_ :: rest) (proj1 Hsrc) source_perm) as (s & E & Hs & Hv). rewrite E. cbn [bind]. destruct (backup_ok backup Hb) as (o & Eo & Ho). exists s, o. rewrite Eo. cbn [bind].
  destruct (compatible_ok size mask (ds ++ rest) Hm out_nodup) as (r & Er & Hst & _). { intros c Hc. rewrite bases_app. apply in_or_app. left. eapply Permutation_in; [apply Permutation_sym, HP|exact Hc]. }
  rewrite Er. cbn [bind]. destruct Ho as (H1 & H2 & H3). rewrite H1, mask_blocks by exact Hst. split; [exact Hs|]. split; [exact Hv|]. split; [reflexivity|]. split; [exact H2|]. split; [exact H3|]. reflexivity.
Qed.
Lemma source_len s : well (set_size size (d_base in_) m) {| dims := in_ :: rest; traw := s |} -> shape s = m :: sizes size rest /\ length (data s) = m * R.
Proof.
  intros (H1 & H2 & _). cbn [dims traw bases map] in *. rewrite set_size_same in H1. fold (bases rest) in H1. fold (sizes (set_size size (d_base in_) m) rest) in H1. rewrite sizes_set in H1 by apply in_not_rest.
  split; [exact H1|]. rewrite H2, H1, prod_cons. reflexivity.
Qed.
Lemma scatter_ok backup : a_backup size backup (ds ++ rest) -> count (bits size mask ds) <= m ->
  exists r, scatter_at size source backup mask ds in_ = Ok r /\ scattered size source backup (on mask) (ds ++ rest) in_ r (number size mask ds).
Proof.
  intros Hb Hc. destruct (scatter_steps backup Hb) as (s & o & Hs & Hv & Ho1 & Ho2 & Ho3 & E). destruct (source_len s Hs) as [Hsh Hsl].
  destruct (scatter_flat_ok (data o) (blocks R (bits size mask ds)) (data s)) as (r & Er & Hrl & Hr).
  { rewrite Ho2, blocks_len, bits_len, sizes_app, prod_app. reflexivity. }
  { rewrite blocks_count, Hsl. apply Nat.mul_le_mono_r, Hc. }
  rewrite E, Er. cbn [bind]. eexists. split; [reflexivity|]. split; [|split; [reflexivity|]].
  - split; [exact Ho1|]. split; [cbn [traw shape data]; rewrite Hrl, Ho1; exact Ho2|exact out_nodup].
  - cbn [dims]. intros env Hi. destruct (out_split env Hi) as [Hd Hre]. pose proof (flat_lt _ _ (inside_indexes size env _ Hi)) as Hp. fold (sizes size (ds ++ rest)) in Hp.
    pose proof (Hr (flat (sizes size (ds ++ rest)) (map env (bases (ds ++ rest))))) as Hn. rewrite Ho2 in Hn. specialize (Hn Hp).
    assert (Hq : flat (sizes size rest) (map env (bases rest)) < R) by (apply flat_lt, inside_indexes, Hre).
    rewrite out_flat in Hn. rewrite blocks_nth in Hn by exact Hq. rewrite blocks_rank in Hn by (try exact Hq; rewrite bits_len; apply position_lt, Hd).
    match goal with |- (_ -> value ?x env = _) /\ _ => assert (V : value x env = nth (position size ds env 0 * R + flat (sizes size rest) (map env (bases rest))) r 0%Z) end.
    { unfold value, at_. cbn [traw dims shape data]. rewrite Ho1, out_flat. reflexivity. }
    rewrite V, Hn. split.
    + intros Hon. pose proof (proj1 (on_bit size mask ds Hm HP env Hd) Hon) as Hbit. rewrite Hbit. rewrite <- Hv.
      * unfold value, at_. cbn [traw dims bases map]. rewrite with_index_same. fold (bases rest). rewrite map_with_index by apply in_not_rest. rewrite Hsh, flat_cons. reflexivity.
      * unfold inside in *. rewrite Forall_forall in *. intros c Hcc. unfold with_index, set_size. destruct (Nat.eqb_spec c (d_base in_)) as [->|Hne]; [|apply Hre, rest_spec; auto].
        pose proof (rank_count _ _ Hbit). unfold number. lia.
    + intros Hoff. destruct (nth (position size ds env 0) (bits size mask ds) false) eqn:Hbit; [exfalso; apply Hoff, (on_bit size mask ds Hm HP env Hd), Hbit|].
      rewrite <- (Ho3 env Hi). unfold at_. rewrite Ho1, out_flat. reflexivity.
Qed.
Lemma scatter_few backup : a_backup size backup (ds ++ rest) -> m < count (bits size mask ds) -> 0 < R -> scatter_at size source backup mask ds in_ = Err OtherException.
Proof.
  intros Hb Hc HR. destruct (scatter_steps backup Hb) as (s & o & Hs & Hv & Ho1 & Ho2 & Ho3 & E). destruct (source_len s Hs) as [Hsh Hsl]. rewrite E, scatter_flat_few; [reflexivity| |].
  - rewrite Ho2, blocks_len, bits_len, sizes_app, prod_app. reflexivity.
  - rewrite blocks_count, Hsl. apply Nat.mul_lt_mono_pos_r; assumption.
Qed.
End Scatter.

(** * The mask without the padding *)
Lemma clean_well size valid mask : well size mask -> well size (copy_masked valid mask).
Proof. intros (H1 & H2 & H3). split; [exact H1|]. split; [apply tabulate_len|exact H3]. Qed.
Lemma clean_on size valid mask env : well size mask -> inside size env (dims mask) -> (on (copy_masked valid mask) env <-> on_valid valid mask env).
Proof.
  intros (H1 & _ & _) Hi. unfold on, on_valid, on, value. cbn [copy_masked dims traw]. rewrite at_tabulate by (rewrite H1; apply inside_indexes, Hi). destruct (valid _); [tauto|]. split; [intros H; exfalso; apply H; reflexivity|intros [_ H]; discriminate].
Qed.
Lemma numbering_iff size (P Q : (nat -> nat) -> Prop) ds k n : (forall env, inside size env ds -> (P env <-> Q env)) -> numbering size P ds k n -> numbering size Q ds k n.
Proof.
  intros H (A & B & C). split; [|split].
  - intros env Hi Hq. apply A, H; assumption.
  - intros e e' He He' Hq Hq'. apply B; auto; apply H; assumption.
  - intros j Hj. destruct (C j Hj) as (env & Hi & Hp & E). exists env. split; [exact Hi|]. split; [apply H; assumption|exact E].
Qed.
Lemma scattered_iff size source backup (P Q : (nat -> nat) -> Prop) ods in_ r k : (forall env, inside size env ods -> (P env <-> Q env)) ->
  scattered size source backup P ods in_ r k -> scattered size source backup Q ods in_ r k.
Proof.
  intros H (A & B & C). split; [exact A|]. split; [exact B|]. intros env Hi. pose proof Hi as Hi2. rewrite B in Hi2. specialize (H env Hi2). specialize (C env Hi). tauto.
Qed.
Lemma masked_scatter_ok size valid mask ds : well size mask -> mask_dims mask ds ->
  exists k n, numbering size (on_valid valid mask) ds k n /\
    forall source backup in_ m, a_source size source mask in_ m -> a_backup size backup (scatter_dims source mask ds in_) ->
      (n <= m -> exists r, masked_scatter size valid source backup mask ds in_ = Ok r /\ scattered size source backup (on_valid valid mask) (scatter_dims source mask ds in_) in_ r k) /\
      (m < n -> (forall c, In c (bases (dims source)) -> c <> d_base in_ -> 0 < size c) -> masked_scatter size valid source backup mask ds in_ = Err OtherException).
Proof.
  intros Hm (HP & Hne). set (cm := copy_masked valid mask). assert (Hcm : well size cm) by (apply clean_well, Hm). assert (HPc : Permutation (bases ds) (bases (dims cm))) by exact HP.
  assert (Hiff : forall env, inside size env ds -> (on cm env <-> on_valid valid mask env)) by (intros env Hi; apply (clean_on size); [exact Hm|eapply inside_perm; [exact HP|exact Hi]]).
  exists (number size cm ds), (count (bits size cm ds)). split; [eapply numbering_iff; [exact Hiff|apply numbering_ok; assumption]|].
  intros source backup in_ m Hs Hb. split.
  - intros Hc. destruct (scatter_ok size source cm ds in_ m Hcm HPc Hs backup Hb Hc) as (r & E & H). exists r. split; [exact E|]. eapply scattered_iff; [|exact H].
    intros env Hi. apply Hiff. unfold scatter_dims, inside in *. rewrite bases_app in Hi. apply Forall_app in Hi. apply Hi.
  - intros Hc Hpos. apply (scatter_few size source cm ds in_ m Hcm HPc Hs backup Hb Hc).
    assert (G : forall l, (forall c, In c l -> 0 < c) -> 0 < prod l). { induction l as [|x l IH]; intros G; [rewrite prod_nil; lia|]. rewrite prod_cons. apply Nat.mul_pos_pos; [apply G; left; reflexivity|apply IH; intros c Hcc; apply G; right; exact Hcc]. }
    apply G. intros c Hcc. unfold sizes in Hcc. apply in_map_iff in Hcc as (x & <- & Hx). apply (rest_spec size source cm in_ m Hs) in Hx as [H1 H2]. apply Hpos; assumption.
Qed.
Lemma round_trip size valid t mask ds out backup : well size t -> well size mask -> mask_dims mask ds -> incl (bases (dims mask)) (bases (dims t)) -> ~ In (d_base out) (bases (dims t)) ->
  a_backup size backup (dims t) -> (forall env, inside size env (dims mask) -> on mask env -> valid (map env (bases (dims mask))) = true) ->
  exists p r, masked_select t mask ds out None = Ok p /\ masked_scatter size valid p backup mask ds out = Ok r /\
    well size r /\ Permutation (bases (dims r)) (bases (dims t)) /\
    forall env, inside size env (dims t) -> (on mask env -> value r env = value t env) /\ (~ on mask env -> value r env = match backup with Some b => value b env | None => 0%Z end).
Proof.
  intros Ht Hm Hd Hi Ho Hb Hv. destruct (select_ok size t mask ds out None Ht Hm Hd Hi Ho) as (p & Ep & Hnum & Hpw & Hpd & Hpv); [discriminate|]. destruct (masked_scatter_ok size valid mask ds Hm Hd) as (k & n & Hk & H).
  assert (Hiff : forall env, inside size env ds -> (on mask env <-> on_valid valid mask env)).
  { intros env He. unfold on_valid. split; [|tauto]. intros Hon. split; [exact Hon|]. apply Hv; [eapply inside_perm; [apply Hd|exact He]|exact Hon]. }
  destruct (numbering_unique _ _ _ _ _ _ _ (numbering_iff _ _ _ _ _ _ Hiff Hnum) Hk) as [En Ek].
  assert (Hom : ~ In (d_base out) (bases (dims mask))) by (intros X; apply Ho, Hi, X).
  assert (Er : scatter_dims p mask ds out = ds ++ filter (fun d => negb (mem d (dims mask))) (dims t)).
  { unfold scatter_dims. rewrite Hpd. f_equal. cbn [filter]. unfold deq at 1. rewrite Nat.eqb_refl, andb_false_r. cbn [negb]. apply filter_all. intros d Hdd. apply filter_In in Hdd as [Hdt Hdm]. rewrite Hdm. cbn. unfold deq. apply negb_true_iff, Nat.eqb_neq. intros X. apply Ho. rewrite <- X. apply In_base, Hdt. }
  assert (HPt : Permutation (bases (ds ++ filter (fun d => negb (mem d (dims mask))) (dims t))) (bases (dims t))).
  { rewrite <- (rest_perm (dims t) (dims mask)); [|apply Ht|apply Hm|exact Hi]. rewrite !bases_app. apply Permutation_app_tail, Hd. }
  destruct (H p backup out n) as [Hs _].
  - split; [rewrite <- En; exact Hpw|]. rewrite Hpd. split; [left; reflexivity|]. intros c [<-|Hc]; [exact Hom|]. apply in_filter_bases in Hc as (d & <- & _ & Hdm). intros X. apply mem_In in X. rewrite X in Hdm. discriminate.
  - rewrite Er. destruct backup as [b|]; [|exact I]. destruct Hb as [Hbw Hbi]. split; [exact Hbw|]. intros c Hc. eapply Permutation_in; [apply Permutation_sym, HPt|apply Hbi, Hc].
  - destruct (Hs (Nat.le_refl n)) as (r & E & Hr1 & Hr2 & Hr3). exists p, r. split; [exact Ep|]. split; [exact E|]. split; [exact Hr1|]. rewrite Er in Hr2. split; [rewrite Hr2; exact HPt|]. intros env He.
    assert (Heo : inside size env (dims r)) by (rewrite Hr2; eapply inside_perm; [apply Permutation_sym, HPt|exact He]). specialize (Hr3 env Heo).
    assert (Hed : inside size env ds) by (rewrite Hr2 in Heo; unfold inside in *; rewrite bases_app in Heo; apply Forall_app in Heo; apply Heo). pose proof (Hiff env Hed) as Hq. destruct Hr3 as [R1 R2]. split.
    + intros Hon. rewrite (R1 (proj1 Hq Hon)), <- (Ek env Hed (proj1 Hq Hon)). apply Hpv; assumption.
    + intros Hoff. apply R2. tauto.
Qed.
Lemma known_wrong size t mask ds out n : well size t -> well size mask -> mask_dims mask ds -> incl (bases (dims mask)) (bases (dims t)) -> n <> count (bits size mask ds) -> masked_select t mask ds out (Some n) = Err AssertionError.
Proof.
  intros Ht Hm (HP & Hne) Hi Hn. unfold masked_select. assert (Es : same_set (dims mask) ds = true) by (apply same_set_spec; split; intros c Hc; [eapply Permutation_in; [apply Permutation_sym, HP|exact Hc]|eapply Permutation_in; [exact HP|exact Hc]]).
  rewrite Es. cbn [assert_ bind]. set (rest := filter (fun d => negb (mem d (dims mask))) (dims t)).
  assert (HPt : Permutation (bases (ds ++ rest)) (bases (dims t))).
  { rewrite <- (rest_perm (dims t) (dims mask)); [|apply Ht|apply Hm|exact Hi]. rewrite !bases_app. apply Permutation_app_tail, HP. }
  destruct (compat_perm size t (ds ++ rest) Ht HPt) as (x & Ex & Hx & Hxv). rewrite Ex. cbn [bind]. destruct (compat_perm size mask ds Hm HP) as (m & Em & Hmw & Hmv). rewrite Em. cbn [bind].
  pose proof (truths_bits size mask ds m Hm HP Hmw Hmv) as Eb. unfold torch_masked_select. rewrite Eb. destruct (assert_ _) as [[]|e] eqn:E1; cbn [bind]; [|unfold assert_ in E1; destruct (_ <=? _); congruence].
  destruct (assert_ _) as [[]|e] eqn:E2 at 1; cbn [bind]; [|unfold assert_ in E2; destruct (forallb _ _); congruence]. rewrite nonzero_len. rewrite (proj2 (Nat.eqb_neq _ _)) by congruence. reflexivity.
Qed.
