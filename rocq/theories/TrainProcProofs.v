(** Proofs about the manager of the training process. *)
From Verif Require Import Base CkptModel TrainProcModel TrainProcSpec.
Local Open Scope Z_scope.

Lemma zmem_In e l : zmem e l = true <-> In e l.
Proof.
  unfold zmem. rewrite existsb_exists. split.
  - intros (x & Hx & E). apply Z.eqb_eq in E. now subst.
  - intros H. exists e. split; [easy|apply Z.eqb_refl].
Qed.
Lemma epoch_range_In final e : In e (epoch_range final) <-> 1 <= e <= final.
Proof.
  unfold epoch_range. rewrite in_map_iff. split.
  - intros (i & <- & Hi). apply in_seq in Hi. lia.
  - intros H. exists (Z.to_nat (e - 1)). split; [lia|]. apply in_seq. lia.
Qed.
Lemma usable_In f final e : In e (get_existing_models f final true) <-> usable f final e.
Proof.
  unfold get_existing_models, usable. rewrite filter_In, epoch_range_In. cbn. rewrite andb_true_iff, !zmem_In. tauto.
Qed.
Lemma fold_max_spec l : forall a, let m := fold_left Z.max l a in a <= m /\ (m = a \/ In m l) /\ forall x, In x l -> x <= m.
Proof.
  induction l as [|y l IH]; intros a; cbn; [split; [lia|split; [now left|easy]]|].
  destruct (IH (Z.max a y)) as (H1 & H2 & H3). split; [lia|]. split.
  - destruct H2 as [->|H2]; [|tauto]. destruct (Z.max_spec a y) as [[? ->]|[? ->]]; auto.
  - intros x [->|Hx]; [lia|auto].
Qed.
Lemma newest_is f final : is_newest f final (newest f final).
Proof.
  unfold newest. destruct (fold_max_spec (get_existing_models f final true) 0) as (H1 & H2 & H3). split.
  - destruct H2 as [H2|H2]; [now left|right; now apply usable_In].
  - intros e' He. apply H3. now apply usable_In.
Qed.
Lemma newest_unique f final a b : is_newest f final a -> is_newest f final b -> a = b.
Proof.
  intros [Ha Ma] [Hb Mb].
  destruct Ha as [->|Ha], Hb as [->|Hb]; [easy| | |].
  - pose proof (Ma _ Hb). destruct Hb. lia.
  - pose proof (Mb _ Ha). destruct Ha. lia.
  - pose proof (Ma _ Hb). pose proof (Mb _ Ha). lia.
Qed.
Lemma newest_eq f final e : is_newest f final e -> newest f final = e.
Proof. intros H. eapply newest_unique; [apply newest_is|exact H]. Qed.
Lemma newest_range f final : 0 <= newest f final <= Z.max 0 final.
Proof. destruct (newest_is f final) as [[->|(H & _)] _]; lia. Qed.

Section P.
  Variable child : nat -> files -> files * Z.
  Variable final : Z.
  Variable f0 : files.
  Notation fs := (after_runs child f0).
  Notation nw n := (newest (fs n) final).

  Lemma unfinished_iff n : unfinished child final f0 n <-> nw n <> final.
  Proof.
    unfold unfinished. split; intros H E.
    - apply H. rewrite <- E at 2. apply newest_is.
    - apply H. now apply newest_eq.
  Qed.
  Lemma progress_iff n : progress child final f0 n <-> nw n < nw (S n).
  Proof.
    split.
    - intros (e & e' & H1 & H2 & H). apply newest_eq in H1, H2. rewrite H1, H2. lia.
    - intros H. exists (nw n), (nw (S n)). repeat split; try easy; apply newest_is.
  Qed.
  Lemma keeps_iff n : keeps child final f0 n <-> nw n <= nw (S n).
  Proof.
    split.
    - intros (e & e' & H1 & H2 & H). apply newest_eq in H1, H2. rewrite H1, H2. lia.
    - intros H. exists (nw n), (nw (S n)). repeat split; try easy; apply newest_is.
  Qed.

  (** the state at the start of the loop after [n] runs *)
  Definition last_at (n : nat) : option Z := match n with O => None | S m => Some (nw m) end.
  Definition code_at (n : nat) : option Z := match n with O => None | S m => Some (code_of child f0 m) end.

  Definition stops (n : nat) : Prop := nw n = final \/ match n with O => False | S m => nw n <= nw m end.
  Definition result_at (n : nat) : res outcome :=
    if nw n =? final then Ok (mkOutcome (match code_at n with Some c => c | None => 0 end) n (fs n))
    else match n with
         | O => Err OutOfFuel
         | S m => if nw m <=? nw n then Ok (mkOutcome (code_of child f0 m) n (fs n)) else Err AssertionError
         end.

  Lemma loop_step fuel n : loop child final (S fuel) (fs n) (last_at n) (code_at n) n =
    if nw n =? final then result_at n
    else match n with
         | O => loop child final fuel (fs (S n)) (last_at (S n)) (code_at (S n)) (S n)
         | S m => if nw n <=? nw m then result_at n
                  else loop child final fuel (fs (S n)) (last_at (S n)) (code_at (S n)) (S n)
         end.
  Proof.
    cbn [loop]. unfold result_at. destruct (nw n =? final) eqn:E.
    - unfold sys_exit. now destruct (code_at n).
    - assert (Hs : forall fu, (let (f', c) := child n (fs n) in loop child final fu f' (Some (nw n)) (Some c) (S n))
          = loop child final fu (fs (S n)) (last_at (S n)) (code_at (S n)) (S n)).
      { intros fu. cbn [last_at code_at after_runs]. unfold code_of. now destruct (child n (fs n)). }
      rewrite Hs. destruct n as [|m]; cbn [last_at code_at]; [reflexivity|].
      destruct (Z.leb_spec (nw m) (nw (S m))) as [H|H]; destruct (Z.leb_spec (nw (S m)) (nw m)) as [H'|H']; try lia.
      + assert (nw (S m) = nw m) as Eq by lia. rewrite Eq, Z.eqb_refl. reflexivity.
      + assert (nw (S m) =? nw m = false) as -> by (apply Z.eqb_neq; lia). reflexivity.
      + reflexivity.
  Qed.

  (** the loop goes on over [k] runs, then stops *)
  Lemma loop_run : forall k n fuel, (forall i, n <= i < n + k -> ~ stops i)%nat -> stops (n + k) -> (k < fuel)%nat ->
    loop child final fuel (fs n) (last_at n) (code_at n) n = result_at (n + k).
  Proof.
    induction k as [|k IH]; intros n fuel Hn Hs Hf; (destruct fuel as [|fuel]; [lia|]); rewrite loop_step.
    - rewrite Nat.add_0_r in *. destruct Hs as [Hs|Hs]; [now rewrite Hs, Z.eqb_refl|].
      destruct (nw n =? final); [easy|]. destruct n as [|m]; [easy|]. apply Z.leb_le in Hs. now rewrite Hs.
    - assert (~ stops n) as H0 by (apply Hn; lia).
      assert (nw n =? final = false) as -> by (apply Z.eqb_neq; intros E; apply H0; now left).
      replace (n + S k)%nat with (S n + k)%nat in * by lia.
      assert (loop child final fuel (fs (S n)) (last_at (S n)) (code_at (S n)) (S n) = result_at (S n + k)) as E.
      { apply IH; [|easy|lia]. intros i Hi. apply Hn. lia. }
      destruct n as [|m]; [exact E|].
      destruct (Z.leb_spec (nw (S m)) (nw m)) as [H|H]; [|exact E]. exfalso. apply H0. now right.
  Qed.

  Lemma stops_dec n : {stops n} + {~ stops n}.
  Proof.
    unfold stops. destruct (Z.eq_dec (nw n) final); [left; now left|]. destruct n as [|m]; [right; tauto|].
    destruct (Z_le_dec (nw (S m)) (nw m)); [left; now right|right; tauto].
  Qed.
  Lemma no_stop_grows k : (forall i, i < k -> ~ stops i)%nat -> forall i, (i < k)%nat -> Z.of_nat i <= nw i < Z.max final (nw i + 1) /\ nw i <> final.
  Proof.
    intros H. induction i as [|i IH]; intros Hi.
    - split; [pose proof (newest_range (fs 0) final); lia|]. intros E. apply (H 0%nat Hi). now left.
    - destruct IH as [IH _]; [lia|]. assert (~ stops (S i)) as Hs by auto.
      assert (nw i < nw (S i)). { destruct (Z_lt_le_dec (nw i) (nw (S i))); [easy|]. exfalso. apply Hs. now right. }
      split; [lia|]. intros E. apply Hs. now left.
  Qed.
  Lemma no_stop_bound k : (forall i, i < k -> ~ stops i)%nat -> Z.of_nat k <= Z.max 1 final.
  Proof.
    intros H. destruct k as [|k]; [lia|]. destruct (no_stop_grows _ H k) as [H1 H2]; [lia|].
    pose proof (newest_range (fs k) final). lia.
  Qed.
  Lemma first_stop : exists k, (forall i, i < k -> ~ stops i)%nat /\ stops k.
  Proof.
    set (b := Z.to_nat (Z.max 1 final)).
    assert (forall k, (exists j, (forall i, i < j -> ~ stops i)%nat /\ stops j) \/ (forall i, i < k -> ~ stops i)%nat) as Hd.
    { induction k as [|k [IH|IH]]; [right; lia|now left|]. destruct (stops_dec k) as [Hk|Hk].
      - left. now exists k.
      - right. intros i Hi. destruct (Nat.eq_dec i k) as [->|]; [easy|]. apply IH. lia. }
    destruct (Hd (S b)) as [H|H]; [easy|]. apply no_stop_bound in H. lia.
  Qed.

  Lemma main_char : exists k, (forall i, i < k -> ~ stops i)%nat /\ stops k /\ Z.of_nat k <= Z.max 1 final /\
    forall fuel, (k < fuel)%nat -> main_proc_manager child final fuel f0 = result_at k.
  Proof.
    destruct first_stop as (k & H1 & H2). exists k. split; [easy|]. split; [easy|]. split; [now apply no_stop_bound|].
    intros fuel Hf. apply (loop_run k 0 fuel); [|easy|easy]. intros i Hi. apply H1. lia.
  Qed.
  Lemma loop_fuel : forall k n fuel, (forall i, n <= i < n + k -> ~ stops i)%nat -> (fuel <= k)%nat ->
    loop child final fuel (fs n) (last_at n) (code_at n) n = Err OutOfFuel.
  Proof.
    induction k as [|k IH]; intros n fuel Hn Hf; (destruct fuel as [|fuel]; [reflexivity|]); [lia|]. rewrite loop_step.
    assert (~ stops n) as H0 by (apply Hn; lia).
    assert (nw n =? final = false) as -> by (apply Z.eqb_neq; intros E; apply H0; now left).
    assert (loop child final fuel (fs (S n)) (last_at (S n)) (code_at (S n)) (S n) = Err OutOfFuel) as E.
    { apply IH; [|lia]. intros i Hi. apply Hn. lia. }
    destruct n as [|m]; [exact E|].
    destruct (Z.leb_spec (nw (S m)) (nw m)) as [H|H]; [|exact E]. exfalso. apply H0. now right.
  Qed.

  Lemma main_terminates fuel : (Z.to_nat final + 1 < fuel)%nat -> main_proc_manager child final fuel f0 <> Err OutOfFuel.
  Proof.
    intros Hf. destruct main_char as (k & H1 & H2 & H3 & H). rewrite H by lia. unfold result_at. destruct (Z.eqb_spec (nw k) final); [easy|].
    destruct k as [|m]; [destruct H2; easy|]. now destruct (nw m <=? nw (S m)).
  Qed.
  Lemma main_ok fuel o : main_proc_manager child final fuel f0 = Ok o ->
    Z.of_nat (num_starts o) <= Z.max 1 final /\
    files_after o = fs (num_starts o) /\
    (forall n, n < num_starts o -> unfinished child final f0 n)%nat /\
    (forall n, S n < num_starts o -> progress child final f0 n)%nat /\
    match num_starts o with
    | O => exit_code o = 0 /\ ~ unfinished child final f0 0
    | S m => exit_code o = code_of child f0 m /\ keeps child final f0 m \/ exit_code o = code_of child f0 m /\ ~ unfinished child final f0 (S m)
    end /\
    (match num_starts o with O => False | S m => ~ progress child final f0 m end \/ ~ unfinished child final f0 (num_starts o)).
  Proof.
    intros E. destruct main_char as (k & H1 & H2 & H3 & H).
    destruct (lt_dec k fuel) as [Hk|Hk].
    2: { exfalso. unfold main_proc_manager in E. change None with (last_at 0) in E at 1.
      assert (loop child final fuel (fs 0) (last_at 0) (code_at 0) 0 = Err OutOfFuel) as E'.
      { apply (loop_fuel k 0 fuel); [|lia]. intros i Hi. apply H1. lia. }
      cbn [after_runs last_at code_at] in *. congruence. }
    rewrite (H _ Hk) in E. clear H.
    assert (Hun : forall n, (n < k)%nat -> unfinished child final f0 n).
    { intros n Hn. apply unfinished_iff. intros En. apply (H1 n Hn). now left. }
    assert (Hpr : forall n, (S n < k)%nat -> progress child final f0 n).
    { intros n Hn. apply progress_iff. destruct (Z_lt_le_dec (nw n) (nw (S n))); [easy|]. exfalso. apply (H1 (S n) Hn). now right. }
    unfold result_at in E. destruct (Z.eqb_spec (nw k) final) as [En|En].
    - injection E as <-. cbn [num_starts files_after exit_code]. repeat (split; [easy|]).
      assert (~ unfinished child final f0 k) as Hf by (rewrite unfinished_iff; tauto).
      destruct k as [|m]; cbn [code_at]; [repeat split; [easy|now right]|]. split; [right; easy|now right].
    - destruct k as [|m]; [easy|]. destruct (Z.leb_spec (nw m) (nw (S m))) as [Hm|]; [|easy]. injection E as <-.
      cbn [num_starts files_after exit_code]. repeat (split; [easy|]). split.
      + left. split; [easy|]. now apply keeps_iff.
      + left. rewrite progress_iff. destruct H2 as [H2|H2]; [easy|lia].
  Qed.
  Lemma main_err fuel e : main_proc_manager child final fuel f0 = Err e ->
    e = OutOfFuel \/ e = AssertionError /\ exists n, (forall i, i <= n -> unfinished child final f0 i)%nat /\
      (forall i, i < n -> progress child final f0 i)%nat /\ ~ keeps child final f0 n.
  Proof.
    intros E. destruct main_char as (k & H1 & H2 & H3 & H).
    destruct (lt_dec k fuel) as [Hk|Hk].
    2: { left. unfold main_proc_manager in E.
      assert (loop child final fuel (fs 0) (last_at 0) (code_at 0) 0 = Err OutOfFuel) as E'.
      { apply (loop_fuel k 0 fuel); [|lia]. intros i Hi. apply H1. lia. }
      cbn [after_runs last_at code_at] in *. congruence. }
    rewrite (H _ Hk) in E. clear H. unfold result_at in E. destruct (Z.eqb_spec (nw k) final) as [En|En]; [easy|].
    destruct k as [|m]; [destruct H2; easy|]. destruct (Z.leb_spec (nw m) (nw (S m))) as [Hm|Hm]; [easy|]. injection E as <-.
    right. split; [easy|]. exists m. split; [|split].
    - intros i Hi. apply unfinished_iff. intros Ei. apply (H1 i); [lia|]. now left.
    - intros i Hi. apply progress_iff. destruct (Z_lt_le_dec (nw i) (nw (S i))); [easy|]. exfalso. apply (H1 (S i)); [lia|]. now right.
    - rewrite keeps_iff. lia.
  Qed.
End P.
