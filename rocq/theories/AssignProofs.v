From Coq Require Import Sorted.
From Verif Require Import Base ListLemmas TensorModel TensorSpec TensorProofs MatmulModel MatmulProofs AssignModel AssignSpec.
Local Open Scope nat_scope.

(** * The selected indices *)
Lemma sorted_same (l : list nat) : forall l', StronglySorted lt l -> StronglySorted lt l' -> (forall x, In x l <-> In x l') -> l = l'.
Proof.
  induction l as [|a l IH]; intros [|b l'] H H' E; [reflexivity|exfalso; apply (E b); left; reflexivity|exfalso; apply (E a); left; reflexivity|].
  apply StronglySorted_inv in H as [H Ha]. apply StronglySorted_inv in H' as [H' Hb]. rewrite Forall_forall in Ha, Hb. assert (a = b).
  { destruct (proj1 (E a) (or_introl eq_refl)) as [->|Hin]; [reflexivity|]. destruct (proj2 (E b) (or_introl eq_refl)) as [->|Hin']; [reflexivity|]. specialize (Ha _ Hin'). specialize (Hb _ Hin). lia. }
  subst b. f_equal. apply IH; [exact H|exact H'|]. intros x. split; intros Hx.
  - destruct (proj1 (E x) (or_intror Hx)) as [->|?]; [specialize (Ha _ Hx); lia|assumption].
  - destruct (proj2 (E x) (or_intror Hx)) as [->|?]; [specialize (Hb _ Hx); lia|assumption].
Qed.
Lemma seq_sorted n : forall s, StronglySorted lt (seq s n).
Proof. induction n as [|n IH]; intros s; cbn; constructor; [apply IH|]. apply Forall_forall. intros x Hx. apply in_seq in Hx. lia. Qed.
Lemma filter_sorted (f : nat -> bool) l : StronglySorted lt l -> StronglySorted lt (filter f l).
Proof.
  induction 1 as [|a l H IH Ha]; cbn; [constructor|]. destruct (f a); [|exact IH]. constructor; [exact IH|]. rewrite Forall_forall in *. intros x Hx. apply filter_In in Hx as [Hx _]. apply Ha, Hx.
Qed.
Lemma range_In step hi x : 0 < step -> forall fuel lo, hi - lo <= fuel -> (In x (range_step fuel lo hi step) <-> exists j, x = lo + j * step /\ x < hi).
Proof.
  intros Hs. induction fuel as [|fuel IH]; intros lo Hf; cbn [range_step].
  - split; [intros []|]. intros (j & -> & H). lia.
  - destruct (Nat.ltb_spec lo hi) as [Hlt|Hge].
    + cbn [In]. rewrite IH by lia. split.
      * intros [<-|(j & -> & H)]; [exists 0; lia|exists (S j); lia].
      * intros ([|j] & -> & H); [left; lia|right; exists j; lia].
    + split; [intros []|]. intros (j & -> & H). lia.
Qed.
Lemma range_sorted step hi : 0 < step -> forall fuel lo, StronglySorted lt (range_step fuel lo hi step) /\ Forall (fun x => lo <= x) (range_step fuel lo hi step).
Proof.
  intros Hs. induction fuel as [|fuel IH]; intros lo; cbn [range_step]; [split; constructor|]. destruct (lo <? hi); [|split; constructor].
  destruct (IH (lo + step)) as [H1 H2]. split; constructor; try assumption; try lia; eapply Forall_impl; try exact H2; cbn; intros; lia.
Qed.
Lemma slice_ok n start stop step : (0 < match step with Some s => s | None => 1 end)%Z ->
  range_step n (slice_end n 0 start) (slice_end n n stop) (Z.to_nat (match step with Some s => s | None => 1%Z end)) = chosen n (KSlice start stop step).
Proof.
  intros Hs. cbn [chosen]. set (s := match step with Some s => s | None => 1%Z end) in *. set (lo := match start with Some i => Z.max 0 (from_end n i) | None => 0%Z end). set (hi := match stop with Some i => from_end n i | None => Z.of_nat n end).
  assert (El : slice_end n 0 start = Z.to_nat (Z.min (Z.of_nat n) lo)) by (unfold slice_end, lo, from_end; destruct start as [i|]; [|lia]; destruct (i <? 0)%Z eqn:E; lia).
  assert (Eh : slice_end n n stop = Z.to_nat (Z.min (Z.of_nat n) hi)) by (unfold slice_end, hi, from_end; destruct stop as [i|]; [|lia]; destruct (i <? 0)%Z eqn:E; lia).
  assert (Hlo : (0 <= lo)%Z) by (unfold lo; destruct start; lia). rewrite El, Eh. clearbody lo hi s.
  apply sorted_same; [apply range_sorted; lia|apply filter_sorted, seq_sorted|]. intros x. rewrite range_In by lia. rewrite filter_In, in_seq, !andb_true_iff, Z.leb_le, Z.ltb_lt, Z.eqb_eq. split.
  - intros (j & E & H). assert (lo < Z.of_nat n)%Z by lia. assert (Ex : (Z.of_nat x - lo = Z.of_nat j * s)%Z) by (rewrite E; rewrite Nat2Z.inj_add, Nat2Z.inj_mul, !Z2Nat.id by lia; lia). assert (0 <= Z.of_nat j * s)%Z by (apply Z.mul_nonneg_nonneg; lia).
    repeat split; try lia. rewrite Ex. apply Z.mod_mul. lia.
  - intros (Hx & (H1 & H2) & H3). apply Z.mod_divide in H3 as [q Eq]; [|lia]. assert (0 <= q)%Z by nia. exists (Z.to_nat q). split; [|lia].
    apply Nat2Z.inj. rewrite Nat2Z.inj_add, Nat2Z.inj_mul, !Z2Nat.id by lia. lia.
Qed.
Lemma wrap_ok n i : (- Z.of_nat n <= i < Z.of_nat n)%Z -> wrap n i = Ok (Z.to_nat (from_end n i)).
Proof.
  intros H. unfold wrap, from_end. destruct (Z.ltb_spec i 0).
  - destruct (Z.leb_spec 0 (i + Z.of_nat n)); [reflexivity|lia].
  - destruct (Z.ltb_spec i (Z.of_nat n)); [reflexivity|lia].
Qed.
Definition sel_of (n : nat) (k : key) : sel := match k with KInt i => One (Z.to_nat (from_end n i)) | _ => Many (chosen n k) end.
Lemma select_ok n k : key_ok n k -> select_key n k = Ok (sel_of n k).
Proof.
  destruct k as [i|start stop step|l]; cbn [key_ok select_key sel_of].
  - intros H. rewrite wrap_ok by exact H. reflexivity.
  - intros H. assert (Hs : (0 < match step with Some s => s | None => 1 end)%Z) by (destruct step; [exact H|lia]). destruct (Z.leb_spec (match step with Some s => s | None => 1%Z end) 0); [lia|]. rewrite slice_ok by exact Hs. reflexivity.
  - intros [H _]. rewrite (mapM_ok_map _ (fun i => Z.to_nat (from_end n i))); [reflexivity|]. intros i Hi. rewrite Forall_forall in H. apply wrap_ok, H, Hi.
Qed.
Lemma chosen_NoDup n k : key_ok n k -> NoDup (chosen n k).
Proof. destruct k; cbn [key_ok]; intros H; [cbn; constructor; [intros []|constructor]|cbn; apply NoDup_filter, seq_NoDup|apply H]. Qed.
Lemma chosen_lt n k x : key_ok n k -> In x (chosen n k) -> x < n.
Proof.
  destruct k; cbn [key_ok]; intros H Hx.
  - cbn in Hx. destruct Hx as [<-|[]]. unfold from_end. destruct (i <? 0)%Z eqn:E; lia.
  - cbn [chosen] in Hx. apply filter_In in Hx as [Hx _]. apply in_seq in Hx. lia.
  - destruct H as [H _]. cbn in Hx. apply in_map_iff in Hx as (i & <- & Hi). rewrite Forall_forall in H. specialize (H i Hi). unfold from_end. destruct (i <? 0)%Z eqn:E; lia.
Qed.
Lemma pos_nth_error l : NoDup l -> forall j x, nth_error l j = Some x -> inb x l = true /\ pos x l = j.
Proof.
  intros Hn j x E. split; [apply inb_In; eapply nth_error_In, E|]. revert j E. induction Hn as [|y l Hy Hn IH]; intros [|j] E; try discriminate; cbn in *.
  - injection E as ->. rewrite Nat.eqb_refl. reflexivity.
  - destruct (Nat.eqb_spec x y) as [->|_]; [exfalso; apply Hy; eapply nth_error_In, E|]. f_equal. apply IH, E.
Qed.
Lemma nth_pos l x : In x l -> nth_error l (pos x l) = Some x.
Proof. induction l as [|y l IH]; cbn; [intros []|]. destruct (Nat.eqb_spec x y) as [->|Hn]; [reflexivity|]. intros [->|H]; [congruence|]. apply IH, H. Qed.

(** * The selected part *)
Section Core.
Variable size : nat -> nat.
Variable parts : list part.
Definition found (c : nat) : option part := find (fun p => fst (fst p) =? c) parts.
Definition axis_sel (c : nat) : sel := match found c with None => Many (seq 0 (size c)) | Some p => sel_of (size c) (snd (fst p)) end.
Definition axis_dims (c : nat) : list nat :=
  match found c with
  | None => [c]
  | Some (_, KInt _, _) => []
  | Some (_, _, Some d) => [d]
  | Some (_, _, None) => []
  end.
Lemma value_dims_eq names : value_dims parts names = flat_map axis_dims names.
Proof. reflexivity. Qed.
Hypothesis Hnames : NoDup (map (fun p : part => fst (fst p)) parts).
Hypothesis Hparts : forall a k kd, In (a, k, kd) parts -> key_ok (size a) k /\ (is_reduce k = false -> exists d, kd = Some d /\ size d = length (chosen (size a) k)).
Lemma found_In c p : found c = Some p -> In p parts /\ fst (fst p) = c.
Proof. unfold found. intros H. apply find_some in H as [H E]. apply Nat.eqb_eq in E. split; assumption. Qed.
Lemma In_found a k kd : In (a, k, kd) parts -> found a = Some (a, k, kd).
Proof.
  unfold found. clear Hparts. revert Hnames. induction parts as [|p l IH]; intros Hn H; [destruct H|]. cbn in Hn. apply NoDup_cons_iff in Hn as [Hp Hn]. cbn [find]. destruct H as [->|H].
  - cbn. rewrite Nat.eqb_refl. reflexivity.
  - destruct (Nat.eqb_spec (fst (fst p)) a) as [E|_]; [|apply IH; assumption]. exfalso. apply Hp. rewrite E. apply (in_map (fun p : part => fst (fst p))) in H. exact H.
Qed.
Lemma view_shape_ok names : view_shape (map axis_sel names) = map size (value_dims parts names).
Proof.
  rewrite value_dims_eq. unfold view_shape. induction names as [|c names IH]; [reflexivity|]. cbn [map flat_map]. rewrite map_app, <- IH. f_equal. unfold axis_sel, axis_dims. destruct (found c) as [[[a k] kd]|] eqn:E; [|rewrite seq_length; reflexivity].
  apply found_In in E as [E Ea]. cbn in Ea. subst a. destruct (Hparts _ _ _ E) as [_ H]. cbn [fst snd]. destruct k; [reflexivity| |]; destruct (H eq_refl) as (d & -> & Hd); cbn [sel_of map]; rewrite Hd; reflexivity.
Qed.
Definition selects_at (env env' : nat -> nat) (c : nat) : Prop :=
  match found c with
  | None => env' c = env c
  | Some (_, KInt i, _) => env c = Z.to_nat (from_end (size c) i)
  | Some (_, k, Some d) => nth_error (chosen (size c) k) (env' d) = Some (env c)
  | Some (_, _, None) => False
  end.
Lemma view_some env env' names : Forall (fun c => env c < size c) names -> Forall (selects_at env env') names ->
  view_index (map axis_sel names) (map env names) = Some (map env' (value_dims parts names)).
Proof.
  rewrite value_dims_eq. intros Hi Hs. induction names as [|c names IH]; [reflexivity|]. apply Forall_cons_iff in Hi as [Hc Hi]. apply Forall_cons_iff in Hs as [Hsc Hs]. specialize (IH Hi Hs).
  cbn [map flat_map]. unfold axis_sel at 1, axis_dims at 1. unfold selects_at in Hsc. destruct (found c) as [[[a k] kd]|] eqn:E.
  - apply found_In in E as [E Ea]. cbn in Ea. subst a. cbn [fst snd]. destruct (Hparts _ _ _ E) as [Hk _]. pose proof (chosen_NoDup _ _ Hk) as Hnd. destruct k as [i|st sp ste|l]; cbn [sel_of view_index].
    + rewrite Hsc, Nat.eqb_refl. exact IH.
    + destruct kd as [d|]; [|destruct Hsc]. destruct (pos_nth_error _ Hnd _ _ Hsc) as [-> ->]. rewrite IH. reflexivity.
    + destruct kd as [d|]; [|destruct Hsc]. destruct (pos_nth_error _ Hnd _ _ Hsc) as [-> ->]. rewrite IH. reflexivity.
  - cbn [view_index]. rewrite (proj2 (inb_In (env c) (seq 0 (size c)))) by (apply in_seq; lia). rewrite IH, pos_seq by lia. rewrite Nat.sub_0_r, <- Hsc. reflexivity.
Qed.
Lemma view_selected env names v : view_index (map axis_sel names) (map env names) = Some v ->
  Forall (fun c => match found c with None => True | Some (_, k, _) => In (env c) (chosen (size c) k) end) names.
Proof.
  revert v. induction names as [|c names IH]; intros v H; constructor.
  - cbn [map] in H. unfold axis_sel at 1 in H. destruct (found c) as [[[a k] kd]|]; [|exact I]. cbn [fst snd] in H. destruct k as [i|st sp ste|l]; cbn [sel_of view_index] in H.
    + destruct (Nat.eqb_spec (env c) (Z.to_nat (from_end (size c) i))) as [->|]; [left; reflexivity|discriminate].
    + destruct (inb (env c) (chosen (size c) (KSlice st sp ste))) eqn:E; [apply inb_In, E|discriminate].
    + destruct (inb (env c) (chosen (size c) (KIndices l))) eqn:E; [apply inb_In, E|discriminate].
  - cbn [map] in H. destruct (axis_sel c) eqn:Es; cbn [view_index] in H; [exfalso; unfold axis_sel, sel_of in Es; destruct (found c) as [[[a k] kd]|]; [destruct k|]; discriminate| |].
    + destruct (env c =? n); [eapply IH, H|discriminate].
    + destruct (inb (env c) l); [|discriminate]. destruct (view_index (map axis_sel names) (map env names)) as [v'|] eqn:E; [|discriminate]. eapply IH. reflexivity.
Qed.
Lemma flat_map_inj (f : nat -> list nat) names : NoDup (flat_map f names) -> forall a b x, In a names -> In b names -> In x (f a) -> In x (f b) -> a = b.
Proof.
  induction names as [|c names IH]; intros Hn a b x Ha Hb Hxa Hxb; [destruct Ha|]. cbn in Hn. assert (Hd : forall y, In y (f c) -> ~ In y (flat_map f names)) by (intros y Hy Hy2; eapply NoDup_disj; eassumption).
  destruct Ha as [<-|Ha], Hb as [<-|Hb]; [reflexivity| | |].
  - exfalso. apply (Hd x Hxa). apply in_flat_map. exists b. split; assumption.
  - exfalso. apply (Hd x Hxb). apply in_flat_map. exists a. split; assumption.
  - eapply IH; try eassumption. eapply NoDup_app_r, Hn.
Qed.
Variable names : list nat.
Hypothesis Hin : forall a k kd, In (a, k, kd) parts -> In a names.
Hypothesis Hdims : NoDup (value_dims parts names).
Lemma part_dim a k d : In (a, k, Some d) parts -> is_reduce k = false -> In d (axis_dims a).
Proof. intros H Hr. unfold axis_dims. rewrite (In_found _ _ _ H). destruct k; [discriminate|left; reflexivity|left; reflexivity]. Qed.
Lemma selects_all env env' : selects size parts env env' -> Forall (selects_at env env') names.
Proof.
  intros [H1 H2]. apply Forall_forall. intros c Hc. unfold selects_at. destruct (found c) as [[[a k] kd]|] eqn:E.
  - pose proof (found_In _ _ E) as [Hp Ea]. cbn in Ea. subst a. specialize (H1 _ _ _ Hp). destruct k as [i|st sp ste|l]; cbn in H1 |- *; [congruence| |]; destruct kd; assumption.
  - apply H2. intros a k d Hp Hr ->. assert (a = c); [|subst a; rewrite (In_found _ _ _ Hp) in E; discriminate]. rewrite value_dims_eq in Hdims. eapply flat_map_inj; [exact Hdims|eapply Hin, Hp|exact Hc|eapply part_dim; eassumption|unfold axis_dims; rewrite E; left; reflexivity].
Qed.
Definition env_of (env : nat -> nat) (c : nat) : nat :=
  match find (fun p : part => match p with (_, k, Some d) => negb (is_reduce k) && (d =? c) | _ => false end) parts with
  | Some (a, k, _) => pos (env a) (chosen (size a) k)
  | None => env c
  end.
Lemma env_selects env : Forall (fun c => match found c with None => True | Some (_, k, _) => In (env c) (chosen (size c) k) end) names -> selects size parts env (env_of env).
Proof.
  intros H. rewrite Forall_forall in H. split.
  - intros a k kd Hp. specialize (H a (Hin _ _ _ Hp)). rewrite (In_found _ _ _ Hp) in H. destruct (Hparts _ _ _ Hp) as [Hk Hd].
    assert (G : is_reduce k = false -> match kd with Some d => nth_error (chosen (size a) k) (env_of env d) = Some (env a) | None => False end).
    { intros Hr. destruct (Hd Hr) as (d & -> & Es). unfold env_of. destruct (find _ parts) as [[[a' k'] kd']|] eqn:E.
      - apply find_some in E as [Hp' E]. destruct kd' as [d'|]; [|discriminate]. apply andb_true_iff in E as [E1 E2]. apply Nat.eqb_eq in E2. subst d'. apply negb_true_iff in E1.
        assert (a' = a). { rewrite value_dims_eq in Hdims. eapply flat_map_inj; [exact Hdims|eapply Hin, Hp'|eapply Hin, Hp|eapply part_dim; eassumption|eapply part_dim; eassumption]. }
        subst a'. pose proof (In_found _ _ _ Hp) as F. rewrite (In_found _ _ _ Hp') in F. injection F as ->. apply nth_pos, H.
      - exfalso. apply (find_none _ _ E) in Hp. rewrite Hr, Nat.eqb_refl in Hp. discriminate. }
    destruct k as [i|st sp ste|l]; [cbn in H |- *; destruct H as [<-|[]]; reflexivity|apply G; reflexivity|apply G; reflexivity].
  - intros c Hc. unfold env_of. destruct (find _ parts) as [[[a k] kd]|] eqn:E; [|reflexivity]. apply find_some in E as [Hp E]. destruct kd as [d|]; [|discriminate]. apply andb_true_iff in E as [E1 E2]. apply Nat.eqb_eq in E2. apply negb_true_iff in E1. exfalso. exact (Hc _ _ _ Hp E1 E2).
Qed.
Lemma selected_inside env env' : Forall (fun c => env c < size c) names -> Forall (selects_at env env') names -> Forall (fun c => env' c < size c) (value_dims parts names).
Proof.
  rewrite value_dims_eq. clear Hin Hdims. intros Hi Hs. induction names as [|c l IH]; [constructor|]. apply Forall_cons_iff in Hi as [Hc Hi]. apply Forall_cons_iff in Hs as [Hsc Hs]. cbn [flat_map]. apply Forall_app. split; [|apply IH; assumption].
  unfold selects_at in Hsc. unfold axis_dims. destruct (found c) as [[[a k] kd]|] eqn:E; [|constructor; [rewrite Hsc; exact Hc|constructor]]. apply found_In in E as [Hp Ea]. cbn in Ea. subst a. destruct (Hparts _ _ _ Hp) as [_ Hd].
  destruct k as [i|st sp ste|l']; [constructor| |]; (destruct kd as [d|]; [|destruct Hsc]); destruct (Hd eq_refl) as (d' & Ed & Es); injection Ed as <-; (constructor; [|constructor]); rewrite Es; apply nth_error_Some; congruence.
Qed.
End Core.

Lemma drop_len s : length (drop_ones s) <= length s.
Proof. induction s as [|[|[|n]] s IH]; cbn; lia. Qed.
Lemma drop_pad s : forall n, length s = n -> pad_shape n (drop_ones s) = s.
Proof.
  induction s as [|m s IH]; intros n Hn; [subst; reflexivity|]. assert (G : pad_shape n (m :: s) = m :: s) by (unfold pad_shape; rewrite Hn, Nat.sub_diag; reflexivity).
  destruct m as [|[|m]]; cbn [drop_ones]; [exact G| |exact G]. cbn [length] in Hn. subst n. specialize (IH (length s) eq_refl). unfold pad_shape in *. pose proof (drop_len s). replace (S (length s) - length (drop_ones s)) with (S (length s - length (drop_ones s))) by lia. cbn [repeat app]. rewrite IH. reflexivity.
Qed.
Lemma drop_at s : forall d i, length i = length s -> at_ {| shape := drop_ones s; data := d |} (broadcast_index (drop_ones s) i) = at_ {| shape := s; data := d |} (broadcast_index s i).
Proof.
  induction s as [|m s IH]; intros d [|k i] Hi; try discriminate; [reflexivity|]. destruct m as [|[|m]]; [reflexivity| |reflexivity]. cbn [drop_ones]. cbn [length] in Hi.
  assert (E1 : broadcast_index (drop_ones s) (k :: i) = broadcast_index (drop_ones s) i).
  { unfold broadcast_index. pose proof (drop_len s). cbn [length]. replace (S (length i) - length (drop_ones s)) with (S (length i - length (drop_ones s))) by lia. reflexivity. }
  assert (E2 : broadcast_index (1 :: s) (k :: i) = 0 :: broadcast_index s i).
  { unfold broadcast_index. cbn [length]. rewrite Hi, Nat.sub_diag. replace (length i - length s) with 0 by lia. reflexivity. }
  rewrite E1, E2, IH by lia. unfold at_. cbn [shape data]. rewrite flat_cons. reflexivity.
Qed.

Section Core2.
Variable size : nat -> nat.
Lemma expands_ok ds own v r : stands size ds own v r -> length (shape r) = length ds -> expands (drop_ones (shape r)) (map size (bases ds)) = true.
Proof.
  intros (_ & H & _) Hl. unfold expands. pose proof (drop_len (shape r)). rewrite map_length, bases_len. rewrite (proj2 (Nat.leb_le _ _)) by lia. cbn [andb]. rewrite drop_pad by exact Hl.
  apply forallb_forall. intros [a b] Hab. apply In_nth_error in Hab as [k Hk].
  assert (Ha : nth_error (shape r) k = Some a /\ nth_error (map size (bases ds)) k = Some b).
  { clear - Hk. revert k Hk. generalize (map size (bases ds)). induction (shape r) as [|x s IH]; intros [|y t] [|k] Hk; try discriminate; cbn in *; [injection Hk as -> ->; split; reflexivity|apply IH, Hk]. }
  destruct Ha as [Ha Hb]. unfold bases in Hb. rewrite !nth_error_map in Hb. destruct (nth_error ds k) as [d|] eqn:E; [|discriminate]. injection Hb as <-. specialize (H k d E). unfold pad_shape in H. rewrite Hl, Nat.sub_diag in H. cbn [repeat app] in H. rewrite (nth_error_nth _ _ _ Ha) in H.
  destruct H as [->| ->]; [reflexivity|]. rewrite Nat.eqb_refl. apply orb_true_r.
Qed.
Lemma core op param val items ds parts : well size param -> well size val -> parts_ok size parts param val -> bases ds = value_dims parts (bases (dims param)) ->
  resolve items (shape (traw param)) = Ok (map (axis_sel size parts) (bases (dims param))) ->
  exists r, (let* v := compatible_raw val ds in let* r := set_items op (traw param) items v in Ok {| dims := dims param; traw := r |}) = Ok r /\ assigned size op parts param val r.
Proof.
  intros Hw Hv (Hn & Hp & Hd & Hincl) Eb Er. set (names := bases (dims param)) in *.
  assert (Hparts : forall a k kd, In (a, k, kd) parts -> key_ok (size a) k /\ (is_reduce k = false -> exists d, kd = Some d /\ size d = length (chosen (size a) k))) by (intros a k kd H; split; apply (Hp a k kd H)).
  assert (Hin : forall a k kd, In (a, k, kd) parts -> In a names) by (intros a k kd H; apply (Hp a k kd H)).
  destruct (compatible_ok size val ds Hv) as (v & Ev & Hst & Hl); [rewrite Eb; exact Hd|rewrite Eb; exact Hincl|]. rewrite Ev. cbn [bind]. unfold set_items. rewrite Er. cbn [bind shape]. rewrite (view_shape_ok size parts Hparts), <- Eb.
  rewrite (expands_ok ds _ _ v Hst Hl). cbn [bind]. eexists. split; [reflexivity|]. destruct Hw as (Hs & Hda & Hnd). unfold assigned. cbn [dims traw]. split; [|split; [reflexivity|]].
  - split; [exact Hs|]. split; [apply tabulate_len|exact Hnd].
  - intros env He. assert (Hi : indexes (map env names) (shape (traw param))) by (rewrite Hs; apply inside_indexes, He). unfold value at 1 4. cbn [dims traw]. fold names. rewrite at_tabulate by exact Hi. split.
    + intros env' Hse. pose proof (selects_all size parts Hn names Hin Hd env env' Hse) as Hsa. rewrite (view_some size parts Hparts env env' names He Hsa). f_equal.
      destruct Hst as (_ & _ & _ & Hat). rewrite drop_at by (rewrite map_length, <- Eb, bases_len; symmetry; exact Hl). rewrite <- Eb. destruct v as [vs vd]. apply Hat. unfold inside. rewrite Eb. eapply selected_inside; eassumption.
    + intros Hno. destruct (view_index (map (axis_sel size parts) names) (map env names)) as [j|] eqn:Ej; [|reflexivity]. exfalso. eapply Hno. eapply env_selects; try eassumption. eapply view_selected, Ej.
Qed.
End Core2.

(** * The keys *)
Definition first_keys (parts : list part) (names : list nat) (m : nat) : list item :=
  map (fun c => match found parts c with Some p => Item (snd (fst p)) | None => NewAxis end) (firstn m names).
Lemma resolve_first size parts names : forall m,
  (forall c p, In c names -> found parts c = Some p -> key_ok (size c) (snd (fst p))) -> (forall i c, nth_error names i = Some c -> i < m -> found parts c <> None) ->
  (forall i c, nth_error names i = Some c -> m <= i -> found parts c = None) ->
  resolve (first_keys parts names m) (map size names) = Ok (map (axis_sel size parts) names).
Proof.
  unfold first_keys. induction names as [|c names IH]; intros m Hk H1 H2; [rewrite firstn_nil; reflexivity|]. destruct m as [|m].
  - change (Ok (map (fun n => Many (seq 0 n)) (map size (c :: names))) = Ok (map (axis_sel size parts) (c :: names))). f_equal. rewrite map_map. apply map_ext_in.
    intros d Hd. apply In_nth_error in Hd as [i Hi]. unfold axis_sel. rewrite (H2 i d Hi) by lia. reflexivity.
  - cbn [firstn map]. pose proof (H1 0 c eq_refl ltac:(lia)) as Hf. unfold axis_sel at 1. destruct (found parts c) as [p|] eqn:E; [|congruence]. cbn [resolve]. rewrite select_ok by (apply Hk; [left; reflexivity|exact E]). cbn [bind].
    rewrite IH; [reflexivity| | |].
    + intros d q Hd Hq. apply Hk; [right; exact Hd|exact Hq].
    + intros i d Hi Hlt. apply (H1 (S i)); [exact Hi|lia].
    + intros i d Hi Hlt. apply (H2 (S i)); [exact Hi|lia].
Qed.

Definition part_of (p : dim * key * option dim) : part := (d_base (fst (fst p)), snd (fst p), option_map d_base (snd p)).
Definition out_dim (todo : list (dim * key * option dim)) (d : dim) : option dim :=
  match find (fun p => d_base (fst (fst p)) =? d_base d) todo with
  | None => Some d
  | Some p => if is_reduce (snd (fst p)) then None else snd p
  end.
Definition out_key (todo : list (dim * key * option dim)) (d : dim) : option key :=
  option_map (fun p => snd (fst p)) (find (fun p => d_base (fst (fst p)) =? d_base d) todo).
Lemma find_app {A} (f : A -> bool) l1 l2 : find f (l1 ++ l2) = match find f l1 with Some x => Some x | None => find f l2 end.
Proof. induction l1 as [|x l1 IH]; [reflexivity|]. cbn. destruct (f x); [reflexivity|exact IH]. Qed.
Lemma lookup_app i l1 l2 : lookup i (l1 ++ l2) = match lookup i l1 with Some x => Some x | None => lookup i l2 end.
Proof. induction l1 as [|[j k] l1 IH]; [reflexivity|]. cbn. destruct (i =? j); [reflexivity|exact IH]. Qed.
Lemma put_map {A B} (f g : A -> B) l i x : nth_error l i = Some x -> (forall j y, nth_error l j = Some y -> j <> i -> f y = g y) -> put i (g x) (map f l) = map g l.
Proof.
  revert i. induction l as [|y l IH]; intros [|i] E H; try discriminate; cbn [map put].
  - injection E as ->. f_equal. apply map_ext_in. intros z Hz. apply In_nth_error in Hz as [j Hj]. apply (H (S j)); [exact Hj|lia].
  - f_equal; [apply (H 0); [reflexivity|lia]|]. apply IH; [exact E|]. intros j z Hj Hne. apply (H (S j)); [exact Hj|lia].
Qed.
Lemma axis_pos ds a : NoDup (bases ds) -> In (d_base a) (bases ds) -> exists x, axis_of ds a = Ok (pos (d_base a) (bases ds)) /\ nth_error ds (pos (d_base a) (bases ds)) = Some x /\ d_base x = d_base a.
Proof.
  intros Hn Ha. rewrite axis_of_index by assumption. rewrite dim_index_pos. pose proof (nth_pos _ _ Ha) as E. unfold bases in E at 1. rewrite nth_error_map in E. destruct (nth_error ds (pos (d_base a) (bases ds))) as [x|]; [|discriminate]. injection E as E. exists x. split; [reflexivity|]. split; [reflexivity|exact E].
Qed.
Lemma loop_ok ds : NoDup (bases ds) -> forall todo done keys,
  NoDup (map (fun p => d_base (fst (fst p))) (done ++ todo)) -> (forall a k kd, In (a, k, kd) todo -> In (d_base a) (bases ds) /\ (is_reduce k = false -> kd <> None)) ->
  (forall i d, nth_error ds i = Some d -> lookup i keys = out_key done d) -> map fst keys = map (fun p => pos (d_base (fst (fst p))) (bases ds)) done ->
  exists keys', several_loop ds todo keys (map (out_dim done) ds) = Ok (keys', map (out_dim (done ++ todo)) ds) /\
    (forall i d, nth_error ds i = Some d -> lookup i keys' = out_key (done ++ todo) d) /\ map fst keys' = map (fun p => pos (d_base (fst (fst p))) (bases ds)) (done ++ todo).
Proof.
  intros Hn. induction todo as [|[[a k] kd] todo IH]; intros done keys Hnd Hin Hk Hf.
  - rewrite app_nil_r. exists keys. split; [reflexivity|]. split; assumption.
  - destruct (Hin a k kd (or_introl eq_refl)) as [Ha Hkd]. destruct (axis_pos ds a Hn Ha) as (x & Ea & Ex & Eb). cbn [several_loop]. rewrite Ea. cbn [bind].
    assert (Hnone : find (fun p : dim * key * option dim => d_base (fst (fst p)) =? d_base a) done = None).
    { destruct (find _ done) as [p|] eqn:E; [|reflexivity]. exfalso. apply find_some in E as [Hp E]. apply Nat.eqb_eq in E. rewrite map_app in Hnd. eapply (NoDup_disj _ _ Hnd (d_base a)); [rewrite <- E; apply (in_map (fun p : dim * key * option dim => d_base (fst (fst p)))), Hp|left; reflexivity]. }
    rewrite (Hk _ _ Ex). unfold out_key. rewrite Eb, Hnone. cbn [option_map].
    assert (Estep : forall o, o = (if is_reduce k then None else kd) -> put (pos (d_base a) (bases ds)) o (map (out_dim done) ds) = map (out_dim (done ++ [(a, k, kd)])) ds).
    { intros o ->. assert (Eo : (if is_reduce k then None else kd) = out_dim (done ++ [(a, k, kd)]) x) by (unfold out_dim; rewrite Eb, find_app, Hnone; cbn; rewrite Nat.eqb_refl; reflexivity). rewrite Eo. apply put_map; [exact Ex|].
      intros j y Hj Hne. unfold out_dim. rewrite find_app. destruct (find (fun p : dim * key * option dim => d_base (fst (fst p)) =? d_base y) done); [reflexivity|]. cbn. destruct (Nat.eqb_spec (d_base a) (d_base y)) as [E|]; [|reflexivity]. exfalso. apply Hne. eapply (NoDup_nth_inj d_base ds Hn); [exact Hj|exact Ex|congruence]. }
    destruct (IH (done ++ [(a, k, kd)]) (keys ++ [(pos (d_base a) (bases ds), k)])) as (keys' & E' & H').
    + rewrite <- app_assoc. exact Hnd.
    + intros a' k' kd' H'. apply Hin. right. exact H'.
    + intros i d Hd. rewrite lookup_app, (Hk i d Hd). unfold out_key. rewrite find_app. destruct (find (fun p : dim * key * option dim => d_base (fst (fst p)) =? d_base d) done); [reflexivity|]. cbn. destruct (Nat.eqb_spec i (pos (d_base a) (bases ds))) as [->|Hi].
      * rewrite Hd in Ex. injection Ex as ->. rewrite Eb, Nat.eqb_refl. reflexivity.
      * destruct (Nat.eqb_spec (d_base a) (d_base d)) as [E|]; [|reflexivity]. exfalso. apply Hi. eapply (NoDup_nth_inj d_base ds Hn); [exact Hd|exact Ex|congruence].
    + rewrite !map_app, Hf. reflexivity.
    + rewrite <- app_assoc in E', H'. cbn [app] in E', H'. exists keys'. split; [|exact H']. destruct (is_reduce k) eqn:Er.
      * rewrite Estep by reflexivity. exact E'.
      * destruct kd as [d|]; [|exfalso; apply Hkd; reflexivity]. rewrite (Estep (Some d)) by reflexivity. exact E'.
Qed.

Lemma found_map todo c : found (map part_of todo) c = option_map part_of (find (fun p => d_base (fst (fst p)) =? c) todo).
Proof. unfold found. induction todo as [|[[a k] kd] todo IH]; [reflexivity|]. cbn. destruct (d_base a =? c); [reflexivity|exact IH]. Qed.
Lemma present_dims todo ds : (forall a k kd, In (a, k, kd) todo -> is_reduce k = false -> kd <> None) -> bases (present (map (out_dim todo) ds)) = value_dims (map part_of todo) (bases ds).
Proof.
  intros H. induction ds as [|d ds IH]; [reflexivity|]. unfold present in *. cbn [map flat_map]. change (bases (d :: ds)) with (d_base d :: bases ds). unfold bases at 1. rewrite map_app. fold (bases (flat_map (fun o => match o with Some d => [d] | None => [] end) (map (out_dim todo) ds))). rewrite IH, !value_dims_eq. cbn [flat_map]. f_equal.
  unfold axis_dims, out_dim. rewrite found_map. destruct (find (fun p : dim * key * option dim => d_base (fst (fst p)) =? d_base d) todo) as [[[a k] kd]|] eqn:E; [|reflexivity]. apply find_some in E as [E _]. specialize (H a k kd E). cbn. destruct k; cbn in *; [reflexivity| |]; (destruct kd; [reflexivity|exfalso; apply H; reflexivity]).
Qed.
Lemma In_list_max x l : In x l -> x <= list_max l.
Proof. intros H. assert (G : Forall (fun k => k <= list_max l) l) by (apply list_max_le; lia). rewrite Forall_forall in G. apply G, H. Qed.
Lemma pos_firstn c l m : In c (firstn m l) -> pos c l < m.
Proof.
  revert m. induction l as [|y l IH]; intros [|m] H; cbn in H; try destruct H; cbn [pos].
  - subst. rewrite Nat.eqb_refl. lia.
  - destruct (c =? y); [lia|]. specialize (IH m H). lia.
Qed.
Lemma several_max names axes : NoDup names -> axes <> [] -> Permutation axes (firstn (length axes) names) -> S (list_max (map (fun c => pos c names) axes)) = length axes.
Proof.
  intros Hn Hne Hp. set (m := length axes) in *. assert (Hm : 0 < m) by (unfold m; destruct axes; [congruence|cbn; lia]). assert (Hle : m <= length names) by (apply Permutation_length in Hp; rewrite firstn_length in Hp; unfold m in *; lia).
  assert (H1 : list_max (map (fun c => pos c names) axes) <= m - 1). { apply list_max_le, Forall_map, Forall_forall. intros c Hc. apply (Permutation_in _ Hp) in Hc. apply pos_firstn in Hc. lia. }
  assert (H2 : m - 1 <= list_max (map (fun c => pos c names) axes)); [|lia].
  apply In_list_max. destruct (nth_error names (m - 1)) as [c|] eqn:E; [|apply nth_error_None in E; lia]. apply in_map_iff. exists c. split; [apply (pos_nth_error _ Hn _ _ E)|]. apply (Permutation_in _ (Permutation_sym Hp)). eapply nth_error_In with (n := m - 1). rewrite nth_error_firstn', (proj2 (Nat.ltb_lt _ _)) by lia. exact E.
Qed.
Lemma items_first keys ds todo : NoDup (bases ds) -> todo <> [] -> (forall i d, nth_error ds i = Some d -> lookup i keys = out_key todo d) -> map fst keys = map (fun p => pos (d_base (fst (fst p))) (bases ds)) todo ->
  Permutation (map (fun p => d_base (fst (fst p))) todo) (firstn (length todo) (bases ds)) -> several_items keys = first_keys (map part_of todo) (bases ds) (length todo).
Proof.
  intros Hn Hne Hk Hf Hp. unfold several_items, first_keys. rewrite Hf, <- (map_map (fun p : dim * key * option dim => d_base (fst (fst p))) (fun c => pos c (bases ds))).
  rewrite several_max; [|exact Hn|destruct todo; [congruence|discriminate]|rewrite map_length; exact Hp]. rewrite map_length.
  assert (Hle : length todo <= length (bases ds)) by (apply Permutation_length in Hp; rewrite map_length, firstn_length in Hp; lia).
  apply nth_error_ext. intros i. rewrite !nth_error_map. destruct (Nat.lt_ge_cases i (length todo)) as [Hi|Hi].
  - rewrite nth_error_seq by exact Hi. rewrite nth_error_firstn', (proj2 (Nat.ltb_lt _ _) Hi). unfold bases. rewrite nth_error_map. destruct (nth_error ds i) as [d|] eqn:E; [|apply nth_error_None in E; rewrite bases_len in Hle; lia]. cbn [option_map]. rewrite (Hk (0 + i) d E). unfold out_key. rewrite found_map.
    destruct (find _ todo) as [[[a k] kd]|]; reflexivity.
  - rewrite (proj2 (nth_error_None _ _)) by (rewrite seq_length; exact Hi). rewrite (proj2 (nth_error_None _ _)) by (rewrite firstn_length; lia). reflexivity.
Qed.
Lemma resolve_parts size parts param val : well size param -> parts_ok size parts param val -> first_axes parts param ->
  resolve (first_keys parts (bases (dims param)) (length parts)) (shape (traw param)) = Ok (map (axis_sel size parts) (bases (dims param))).
Proof.
  intros (Hs & _ & Hnd) (Hn & Hp & _) Hf. rewrite Hs. unfold first_axes in Hf. apply resolve_first.
  - intros c p Hc E. apply found_In in E as [E <-]. destruct p as [[a k] kd]. apply (Hp _ _ _ E).
  - intros i c Hc Hi E. assert (Hin : In c (firstn (length parts) (bases (dims param)))) by (eapply nth_error_In with (n := i); rewrite nth_error_firstn', (proj2 (Nat.ltb_lt _ _) Hi); exact Hc).
    apply (Permutation_in _ (Permutation_sym Hf)) in Hin. apply in_map_iff in Hin as ([[a k] kd] & Ea & Hin). cbn in Ea. subst a. rewrite (In_found parts Hn _ _ _ Hin) in E. discriminate.
  - intros i c Hc Hi. destruct (found parts c) as [p|] eqn:E; [|reflexivity]. exfalso. apply found_In in E as [E Ea]. apply (in_map (fun p : part => fst (fst p))) in E. rewrite Ea in E. apply (Permutation_in _ Hf) in E. apply pos_firstn in E. rewrite (proj2 (pos_nth_error _ Hnd _ _ Hc)) in E. lia.
Qed.
Lemma several_ok size op param val axes l kds : well size param -> well size val -> length axes = length l -> length kds = length l -> l <> [] ->
  parts_ok size (names_of axes l kds) param val -> first_axes (names_of axes l kds) param ->
  exists r, assign_key op param (Dims (map Some axes)) (Several l) (Dims kds) val = Ok r /\ assigned size op (names_of axes l kds) param val r.
Proof.
  intros Hw Hv Ha Hk Hne Hp Hf. set (todo := combine (combine axes l) kds).
  assert (Eparts : names_of axes l kds = map part_of todo) by (unfold names_of; apply map_ext; intros [[a k] kd]; reflexivity). rewrite Eparts in *.
  assert (Elt : length todo = length l) by (unfold todo; rewrite !combine_length; lia).
  assert (Em : mapM (fun '(a, k, kd) => match a with Some a => Ok (a, k, kd) | None => Err TypeError end) (combine (combine (map Some axes) l) kds) = Ok todo).
  { unfold todo. clear. revert l kds. induction axes as [|a axes IH]; intros [|k l] [|kd kds]; try reflexivity. specialize (IH l kds). cbn in *. rewrite IH. reflexivity. }
  clearbody todo. unfold assign_key, raw_key. destruct l as [|k0 l0] eqn:El; [congruence|]. rewrite <- El in *. clear El. rewrite map_length, Ha, Nat.eqb_refl. cbn [negb bind]. rewrite Hk, Nat.eqb_refl. cbn [bind].
  rewrite Em. cbn [bind].
  pose proof Hw as (_ & _ & Hnd). pose proof Hp as (Hn & Hpp & _).
  assert (Htodo : forall a k kd, In (a, k, kd) todo -> In (d_base a) (bases (dims param)) /\ (is_reduce k = false -> kd <> None)).
  { intros a k kd H. apply (in_map part_of) in H. destruct (Hpp _ _ _ H) as (H1 & _ & H2). split; [exact H1|]. intros Hr ->. destruct (H2 Hr) as (d & E & _). discriminate. }
  destruct (loop_ok (dims param) Hnd todo [] []) as (keys & E & Hkeys & Hfst).
  { cbn [app]. rewrite map_map in Hn. exact Hn. } { exact Htodo. } { intros i d _. reflexivity. } { reflexivity. }
  cbn [app] in E, Hkeys, Hfst. assert (E0 : map Some (dims param) = map (out_dim []) (dims param)) by reflexivity. rewrite E0, E. cbn [bind].
  rewrite (items_first keys (dims param) todo Hnd); [|destruct todo; [destruct l; [congruence|discriminate]|discriminate]|exact Hkeys|exact Hfst|].
  - apply core; try assumption; [apply present_dims; intros a k kd H Hr; apply (Htodo _ _ _ H), Hr|]. rewrite <- (map_length part_of todo). eapply resolve_parts; eassumption.
  - unfold first_axes in Hf. rewrite map_map, map_length in Hf. exact Hf.
Qed.
