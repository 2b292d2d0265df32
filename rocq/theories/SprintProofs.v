(** Proofs about the threads of SprintDatasetBase. *)
From Verif Require Import Base ListLemmas SprintModel SprintSpec.
Local Open Scope nat_scope.

Section P.
  Context {D : Type}.
  Variable epochs : list (list D).
  Notation E := (length epochs).

  Fixpoint number (i : nat) (l : list D) : list (nat * D) :=
    match l with [] => [] | d :: l' => (i, d) :: number (S i) l' end.
  Lemma number_app l1 : forall i l2, number i (l1 ++ l2) = number i l1 ++ number (i + length l1) l2.
  Proof.
    induction l1 as [|d l1 IH]; intros i l2; cbn; [now rewrite Nat.add_0_r|]. rewrite IH. now replace (S i + length l1) with (i + S (length l1)) by lia.
  Qed.
  Lemma have_number l : forall i n, i <= n -> have_added (number i l) n = Ok (n <? i + length l).
  Proof.
    induction l as [|d l IH]; intros i n Hn; cbn [number have_added length].
    - rewrite Nat.add_0_r. f_equal. symmetry. apply Nat.ltb_ge. lia.
    - destruct (Nat.ltb_spec n i); [lia|]. destruct (Nat.eqb_spec i n) as [->|].
      + f_equal. symmetry. apply Nat.ltb_lt. lia.
      + rewrite IH by lia. f_equal. f_equal. lia.
  Qed.
  Lemma cleanup_number l : forall i n, i <= n -> cleanup (number i l) n = number n (skipn (n - i) l).
  Proof.
    induction l as [|d l IH]; intros i n Hn; cbn [number cleanup]; [now rewrite skipn_nil|].
    destruct (Nat.leb_spec n i).
    - assert (i = n) as -> by lia. now rewrite Nat.sub_diag.
    - rewrite IH by lia. replace (n - i) with (S (n - S i)) by lia. reflexivity.
  Qed.
  Lemma get_number l : forall i, get_seq (number i l) i = nth_error l 0.
  Proof. intros i. destruct l; cbn; [easy|]. now rewrite Nat.eqb_refl. Qed.

  (** the Sprint thread in epoch [e] after [k] sequences, [rest] to come *)
  Inductive pview (e k : nat) (m : dataset D) : producer D -> list D -> Prop :=
  | pv_add rest : next_add m = k -> final m = false -> ready m = true -> pview e k m (PAdd e rest (skipn e epochs)) rest
  | pv_wait d l b : next_add m = S k -> final m = false -> ready m = true ->
      (b = false -> requested m + cached_min < k + 1) -> pview e k m (PWaitAdd e k d l (skipn e epochs) b) (d :: l)
  | pv_last : next_add m = k -> final m = true -> skipn e epochs = [] -> pview e k m PDone []
  | pv_next b : next_add m = k -> final m = true -> skipn e epochs <> [] ->
      pview e k m (PWaitEpoch (S e) (skipn e epochs) b) [].
  (** the train thread in epoch [e] at sequence [n] *)
  Inductive cview (e k n : nat) (m : dataset D) : consumer -> Prop :=
  | cv_init : e = 1 -> n = 0 -> returnn_epoch m = None -> cview e k n m (CInit e)
  | cv_check : returnn_epoch m = Some e -> n <= S (expected m) -> cview e k n m (CCall Check e n)
  | cv_wait b : returnn_epoch m = Some e -> n <= S (expected m) -> (b = false -> final m = false /\ k <= n) -> cview e k n m (CWait Check e n b)
  | cv_load : returnn_epoch m = Some e -> n < k -> n <= S (expected m) -> cview e k n m (CCall Load e n)
  | cv_get : returnn_epoch m = Some e -> n < k -> expected m = n -> cview e k n m (CCall Get e n).

  Inductive inv (s : state D) : Prop :=
  | i_end : prod s = PDone -> cons_ s = CDone -> out s = epochs -> inv s
  | i_first : prod s = PInit 1 epochs -> expected (ds_ s) = 0 -> next_add (ds_ s) = 0 -> final (ds_ s) = false ->
      added (ds_ s) = [] -> out s = [] -> cur s = [] ->
      (cons_ s = CInit 1 /\ returnn_epoch (ds_ s) = None \/
       (cons_ s = CCall Check 1 0 \/ exists b, cons_ s = CWait Check 1 0 b) /\ returnn_epoch (ds_ s) = Some 1) -> 1 <= E -> inv s
  | i_stale e : 2 <= e <= E -> out s = firstn (e - 1) epochs -> cur s = [] -> sprint_epoch (ds_ s) <> Some e ->
      (cons_ s = CInit e /\ returnn_epoch (ds_ s) = Some (e - 1) /\ (exists b, prod s = PWaitEpoch e (skipn (e - 1) epochs) b) \/
       cons_ s = CCall Check e 0 /\ returnn_epoch (ds_ s) = Some e /\
         (prod s = PWaitEpoch e (skipn (e - 1) epochs) true \/ prod s = PInit e (skipn (e - 1) epochs))) -> inv s
  | i_sync e ds pre x rest n : 1 <= e <= E -> nth_error epochs (e - 1) = Some ds -> ds = pre ++ x ++ rest ->
      expected (ds_ s) = length pre -> added (ds_ s) = number (length pre) x -> sprint_epoch (ds_ s) = Some e ->
      out s = firstn (e - 1) epochs -> cur s = firstn n ds -> length pre <= n <= length pre + length x -> n <= requested (ds_ s) ->
      pview e (length pre + length x) (ds_ s) (prod s) rest ->
      cview e (length pre + length x) n (ds_ s) (cons_ s) -> inv s.

  Lemma skipn_nth {A} (l : list A) : forall i x, nth_error l i = Some x -> skipn i l = x :: skipn (S i) l.
  Proof. induction l as [|y l IH]; intros [|i] x H; cbn in *; try discriminate; [congruence|]. now apply IH. Qed.
  Lemma firstn_S_nth {A} (l : list A) : forall i x, nth_error l i = Some x -> firstn (S i) l = firstn i l ++ [x].
  Proof. induction l as [|y l IH]; intros [|i] x H; cbn in *; try discriminate; [congruence|]. f_equal. now apply IH. Qed.

  Lemma inv_start : epochs <> [] -> inv (start epochs).
  Proof.
    intros H. apply i_first; try reflexivity; [left; now split|]. destruct epochs; [easy|cbn; lia].
  Qed.

  Lemma wake_c_view e k n m m' c : returnn_epoch m' = returnn_epoch m -> expected m' = expected m ->
    cview e k n m c -> forall k', k <= k' -> cview e k' n m' (wake_c c).
  Proof.
    intros H1 H2 [? ? ?|? ?|b ? ? ?|? ? ?|? ? ?] k' Hk; cbn; constructor; rewrite ?H1, ?H2; try easy; lia.
  Qed.

  Lemma wake_p_view e k m m' p rest : next_add m' = next_add m -> final m' = final m -> ready m' = ready m ->
    pview e k m p rest -> pview e k m' (wake_p p) rest.
  Proof.
    intros H1 H2 H3 [? ? ? ?|d l b ? ? ? ?|? ? ?|b ? ? ?]; cbn; constructor; rewrite ?H1, ?H2, ?H3; easy.
  Qed.

  Lemma step_p_inv s s' : inv s -> step_p s = Some s' -> started s -> inv s'.
  Proof.
    intros I H Hst. destruct s as [m p c o cu]. unfold step_p, started in *. cbn [ds_ prod cons_ out cur] in *.
    destruct I as [Hp Hc Ho|Hp He Hn Hf Ha Ho Hcu Hcs HE|e HeE Ho Hcu Hsp Hcs|e ds pre x rest n HeE Hnth Hds He Ha Hsp Ho Hcu Hn Hrq Hpv Hcv];
      cbn [ds_ prod cons_ out cur] in *.
    - rewrite Hp in H. discriminate.
    - rewrite Hp in H. destruct epochs as [|l todo] eqn:Hep; [cbn in HE; lia|]. rewrite <- Hep in *. injection H as <-.
      apply (i_sync _ 1 l [] [] l 0); cbn; try easy; try lia.
      + now rewrite Hep.
      + replace todo with (skipn 1 epochs) by now rewrite Hep. now constructor.
      + destruct Hcs as [[-> Hr]|[[->|(b & ->)] Hr]]; cbn; constructor; cbn; try easy; lia.
    - destruct Hcs as [(Hc & Hr & b & Hp)|(Hc & Hr & [Hp|Hp])]; rewrite Hp in H; try rewrite Hr in H.
      + destruct b; [|discriminate]. destruct (Nat.eqb_spec e (e - 1)); [lia|]. destruct (Nat.ltb_spec (e - 1) e); [|lia]. injection H as <-.
        apply (i_stale _ e); cbn; try easy; try lia. left. repeat split; try easy. now exists false.
      + rewrite Nat.eqb_refl in H. injection H as <-. apply (i_stale _ e); cbn; try easy; try lia. right. repeat split; try easy. now right.
      + assert (exists l, nth_error epochs (e - 1) = Some l) as (l & Hl).
        { destruct (nth_error epochs (e - 1)) eqn:X; [now eexists|]. apply nth_error_None in X. lia. }
        rewrite (skipn_nth _ _ _ Hl) in H. replace (S (e - 1)) with e in H by lia. injection H as <-.
        apply (i_sync _ e l [] [] l 0); cbn [ds_ prod cons_ out cur expected requested added sprint_epoch returnn_epoch length number app firstn Nat.add]; try easy; try lia.
        * now constructor.
        * rewrite Hc. cbn. constructor; cbn; [easy|lia].
    - destruct Hpv as [rest H1 H2 H3|d l b H1 H2 H3 H4|H1 H2 H3|b H1 H2 H3].
      + destruct rest as [|d rest].
        * injection H as <-. apply (i_sync _ e ds pre x [] n); cbn; try easy.
          -- destruct (skipn e epochs) as [|t0 t] eqn:Hsk; [now constructor|]. rewrite <- Hsk in *.
             constructor; cbn; try easy. now rewrite Hsk.
          -- destruct Hcv as [? ? ?|? ?|b ? ? ?|? ? ?|? ? ?]; cbn; constructor; easy.
        * rewrite H3, H2 in H. cbn [negb orb] in H.
          destruct (Nat.ltb_spec (requested m + cached_max) (next_add m + 1)) as [Hlt|Hlt].
          -- assert (requested m + cached_min <? next_add m + 1 = true) as Hmin.
             { apply Nat.ltb_lt. unfold cached_max, cached_min in *. lia. }
             rewrite Hmin in H. injection H as <-. apply Nat.ltb_lt in Hmin. rewrite H1 in *.
             apply (i_sync _ e ds pre x (d :: rest) n); cbn; try easy.
             ++ constructor; cbn; try easy; lia.
             ++ eapply wake_c_view; [| |exact Hcv|]; try easy.
          -- injection H as <-. apply (i_sync _ e ds pre (x ++ [d]) rest n); cbn; rewrite ?app_length; cbn; try easy; try lia.
             ++ rewrite <- app_assoc. exact Hds.
             ++ rewrite number_app, Ha, H1. reflexivity.
             ++ constructor; cbn; try easy; lia.
             ++ replace (wake_c (wake_c c)) with (wake_c c) by now destruct c.
                eapply wake_c_view; [| |exact Hcv|]; try easy; lia.
      + destruct b; [|discriminate].
        destruct (Nat.ltb_spec (requested m + cached_min) (length pre + length x + 1)) as [Hlt|Hlt].
        * rewrite H2, H1 in H. replace (length pre + length x + 1 =? S (length pre + length x)) with true in H by (symmetry; apply Nat.eqb_eq; lia).
          injection H as <-. apply (i_sync _ e ds pre x (d :: l) n); cbn; try easy. constructor; easy.
        * injection H as <-. apply (i_sync _ e ds pre (x ++ [d]) l n); cbn; rewrite ?app_length; cbn; try easy; try lia.
          -- rewrite <- app_assoc. exact Hds.
          -- rewrite number_app, Ha. reflexivity.
          -- constructor; cbn; try easy; lia.
          -- eapply wake_c_view; [| |exact Hcv|]; try easy; lia.
      + discriminate.
      + destruct b; [|discriminate].
        assert (Hr : returnn_epoch m = Some e) by (destruct Hcv; easy).
        rewrite Hr in H. destruct (Nat.eqb_spec (S e) e); [lia|]. destruct (Nat.ltb_spec e (S e)); [|lia]. injection H as <-.
        apply (i_sync _ e ds pre x [] n); cbn; try easy. now constructor.
  Qed.

  (** a call which gets what it waits for *)
  Lemma pass_sync e (m : dataset D) x (pre : list D) n k p rest : added m = number (length pre) x -> length pre <= n -> k = length pre + length x -> n <= k ->
    pview e k m p rest -> can_pass m n = Ok (final m || (n <? k)).
  Proof.
    intros Ha Hn -> Hk Hp. unfold can_pass. destruct (final m); [easy|]. cbn. now rewrite Ha, have_number.
  Qed.

  (** the end of a call of is_less_than_num_seqs *)
  Lemma check_sync m p c o cu e ds pre x rest n : 1 <= e <= E -> nth_error epochs (e - 1) = Some ds -> ds = pre ++ x ++ rest ->
      expected m = length pre -> added m = number (length pre) x -> sprint_epoch m = Some e -> returnn_epoch m = Some e ->
      o = firstn (e - 1) epochs -> cu = firstn n ds -> length pre <= n <= length pre + length x -> n <= S (expected m) -> n <= requested m ->
      pview e (length pre + length x) m p rest -> inv (check E (mkState m p c o cu) Check e n).
  Proof.
    intros HeE Hnth Hds He Ha Hsp Hr Ho Hcu Hn Hn1 Hrq Hpv. unfold check. cbn [ds_ prod cons_ out cur].
    rewrite (pass_sync e m x pre n _ p rest Ha (proj1 Hn) eq_refl (proj2 Hn) Hpv).
    destruct (Nat.ltb_spec n (length pre + length x)) as [Hlt|Hge].
    - rewrite orb_true_r. cbn [after_call ds_ prod cons_ out cur]. assert (n < next_add m) as Hnx by (destruct Hpv; lia). apply Nat.ltb_lt in Hnx. rewrite Hnx.
      apply (i_sync _ e ds pre x rest n); try easy. cbn. constructor; [easy|lia|lia].
    - rewrite orb_false_r. destruct (final m) eqn:Hf.
      + cbn [after_call ds_ prod cons_ out cur]. assert (next_add m = n /\ rest = [] /\ (p = PDone /\ skipn e epochs = [] \/
            skipn e epochs <> [] /\ exists b, p = PWaitEpoch (S e) (skipn e epochs) b)) as (Hnx & -> & Hp).
        { destruct Hpv; try congruence; (split; [lia|split; [easy|]]); [left|right]; split; try easy. now eexists. }
        rewrite Hnx, Nat.ltb_irrefl.
        assert (cu = ds) as ->.
        { rewrite Hcu. apply firstn_all2. rewrite Hds, app_nil_r, app_length. lia. }
        assert (o ++ [ds] = firstn e epochs) as Ho'.
        { rewrite Ho. replace e with (S (e - 1)) at 2 by lia. symmetry. now apply firstn_S_nth. }
        destruct Hp as [[-> Hsk]|[Hsk (b & ->)]].
        * assert (e = E) as -> by (apply (f_equal (@length _)) in Hsk; rewrite skipn_length in Hsk; cbn in Hsk; lia).
          rewrite Nat.eqb_refl. apply i_end; cbn; try easy. rewrite Ho'. apply firstn_all.
        * assert (e <> E) as HeN by (intros ->; apply Hsk; apply skipn_all).
          apply Nat.eqb_neq in HeN as HeN'. rewrite HeN'. apply (i_stale _ (S e)); cbn; try easy; try lia.
          -- now rewrite Nat.sub_0_r.
          -- rewrite Hsp. intros [=]. lia.
          -- left. rewrite Nat.sub_0_r. repeat split; try easy. now exists b.
      + cbn. apply (i_sync _ e ds pre x rest n); try easy. cbn. constructor; try easy.
  Qed.

  Lemma step_c_inv s s' : inv s -> step_c E s = Some s' -> in_time s -> inv s'.
  Proof.
    intros I H Hst. destruct s as [m p c o cu]. unfold step_c, in_time in *. cbn [ds_ prod cons_ out cur] in *.
    destruct I as [Hp Hc Ho|Hp He Hn Hf Ha Ho Hcu Hcs HE|e HeE Ho Hcu Hsp Hcs|e ds pre x rest n HeE Hnth Hds He Ha Hsp Ho Hcu Hn Hrq Hpv Hcv];
      cbn [ds_ prod cons_ out cur] in *.
    - rewrite Hc in H. discriminate.
    - destruct Hcs as [[-> Hr]|[[->|(b & ->)] Hr]].
      + injection H as <-. apply i_first; cbn; try easy; [rewrite Hp; easy|]. right. split; [now left|easy].
      + unfold wait_for_seq in H. cbn [ds_ prod cons_ out cur] in H.
        destruct (requested m <? 1); unfold check, can_pass in H; cbn [ds_ final added] in H; rewrite Hf, Ha in H; cbn in H; injection H as <-;
          (apply i_first; cbn; rewrite ?Hp; try easy; right; split; [right; now exists false|easy]).
      + destruct b; [|discriminate]. unfold check, can_pass in H. cbn [ds_ final added] in H. rewrite Hf, Ha in H. cbn in H. injection H as <-.
        apply i_first; cbn; try easy. right. split; [right; now exists false|easy].
    - destruct Hcs as [(-> & Hr & b & Hp)|(-> & Hr & Hp)].
      + injection H as <-. apply (i_stale _ e); cbn; try easy. right. repeat split; try easy. left. now rewrite Hp.
      + exfalso. destruct Hst as [->|Hst]; [lia|easy].
    - destruct Hcv as [-> -> Hr|Hr Hc1|b Hr Hc1 Hc2|Hr Hc1 Hc2|Hr Hc1 Hc2].
      + injection H as <-. apply (i_sync _ 1 ds pre x rest 0); cbn; try easy.
        * now apply wake_p_view with (m := m).
        * constructor; cbn; [easy|lia].
      + unfold wait_for_seq in H. cbn [ds_ prod cons_ out cur] in H. destruct (Nat.ltb_spec (requested m) (S n)) as [Hlt|Hge]; injection H as <-.
        * apply (check_sync _ _ _ _ _ e ds pre x rest n); cbn; try easy; try lia. now apply wake_p_view with (m := m).
        * apply (check_sync _ _ _ _ _ e ds pre x rest n); cbn; try easy.
      + destruct b; [|discriminate]. injection H as <-. apply (check_sync _ _ _ _ _ e ds pre x rest n); cbn; try easy.
      + destruct (Nat.ltb_spec n (expected m)); [lia|].
        (* both branches end in the state with [expected = n] *)
        assert (Hgoal : forall m1 p1 c1, expected m1 = n -> added m1 = number n (skipn (n - length pre) x) ->
            sprint_epoch m1 = Some e -> returnn_epoch m1 = Some e -> n <= requested m1 ->
            pview e (length pre + length x) m1 p1 rest -> inv (wait_for_seq E (mkState m1 p1 c1 o cu) Load e n)).
        { intros m1 p1 c1 G1 G2 G3 G4 G5 G6.
          assert (Hx : ds = firstn n ds ++ skipn (n - length pre) x ++ rest).
          { rewrite <- (firstn_skipn n ds) at 1. f_equal. rewrite Hds. rewrite skipn_app, skipn_all2 by lia. cbn.
            rewrite skipn_app. f_equal. replace (n - length pre - length x) with 0 by lia. reflexivity. }
          assert (Hl : length (firstn n ds) = n).
          { apply firstn_length_le. rewrite Hds, !app_length. lia. }
          assert (Hk : n + length (skipn (n - length pre) x) = length pre + length x) by (rewrite skipn_length; lia).
          assert (Hpass : forall m2, final m2 = final m1 -> added m2 = added m1 -> can_pass m2 n = Ok true).
          { intros m2 E1 E2. unfold can_pass. rewrite E1, E2, G2. destruct (final m1); [easy|]. rewrite have_number by lia. f_equal. apply Nat.ltb_lt. lia. }
          unfold wait_for_seq. cbn [ds_ prod cons_ out cur]. destruct (Nat.ltb_spec (requested m1) (S n)) as [Hlt|Hge].
          - unfold check. cbn [ds_ prod cons_ out cur]. rewrite Hpass by easy. cbn.
            apply (i_sync _ e ds (firstn n ds) (skipn (n - length pre) x) rest n); cbn; rewrite ?Hl, ?Hk; try easy; try lia.
            + now apply wake_p_view with (m := m1).
            + constructor; cbn; try easy.
          - unfold check. cbn [ds_ prod cons_ out cur]. rewrite Hpass by easy. cbn.
            apply (i_sync _ e ds (firstn n ds) (skipn (n - length pre) x) rest n); cbn; rewrite ?Hl, ?Hk; try easy; try lia.
            constructor; cbn; try easy. }
        destruct (Nat.ltb_spec (expected m) n) as [Hlt|Hge]; injection H as <-.
        * apply Hgoal; cbn; try easy; [|now apply wake_p_view with (m := m)]. rewrite Ha. apply cleanup_number. lia.
        * apply Hgoal; try easy; [lia|]. assert (n = length pre) as -> by lia. now rewrite Nat.sub_diag.
      + assert (Hgoal : forall m1 p1 c1, expected m1 = n -> added m1 = added m -> final m1 = final m -> sprint_epoch m1 = Some e -> returnn_epoch m1 = Some e ->
            S n <= requested m1 -> pview e (length pre + length x) m1 p1 rest -> inv (check E (mkState m1 p1 c1 o cu) Get e n)).
        { intros m1 p1 c1 G1 G2 G3 G4 G5 G6 G7. unfold check. cbn [ds_ prod cons_ out cur].
          assert (can_pass m1 n = Ok true) as ->.
          { unfold can_pass. rewrite G2, Ha. destruct (final m1); [easy|]. rewrite have_number by lia. f_equal. apply Nat.ltb_lt. lia. }
          cbn. rewrite G2, Ha. assert (length pre = n) as Hpn by lia. rewrite Hpn, get_number.
          destruct x as [|d x]; [cbn in Hc1; lia|]. cbn.
          apply (i_sync _ e ds pre (d :: x) rest (S n)); cbn; try easy; try lia.
          - now rewrite G2, Ha.
          - rewrite Hcu. change (firstn n ds ++ [d] = firstn (S n) ds). symmetry. apply firstn_S_nth. rewrite Hds. rewrite nth_error_app2 by lia. now rewrite Hpn, Nat.sub_diag.
          - constructor; cbn; [easy|lia]. }
        unfold wait_for_seq in H. cbn [ds_ prod cons_ out cur] in H. destruct (Nat.ltb_spec (requested m) (S n)) as [Hlt|Hge]; injection H as <-.
        * apply Hgoal; cbn; try easy. now apply wake_p_view with (m := m).
        * apply Hgoal; try easy.
  Qed.

  Lemma inv_step s s' : inv s -> step_in_time epochs s s' -> inv s'.
  Proof. intros I [[H1 H2]|[H1 H2]]; [eapply step_p_inv|eapply step_c_inv]; eauto. Qed.
  Lemma inv_run s n s' : inv s -> run (step_in_time epochs) s n s' -> inv s'.
  Proof. intros I H. induction H as [s|s s1 n s2 H1 H2 IH]; [easy|]. apply IH. eapply inv_step; eauto. Qed.
  Lemma inv_ok s : inv s -> ~ failed s.
  Proof.
    intros I [(x & Hx)|(x & Hx)]; destruct I as [Hp Hc Ho|Hp He Hn Hf Ha Ho Hcu Hcs HE|e HeE Ho Hcu Hsp Hcs|e ds pre y rest n HeE Hnth Hds He Ha Hsp Ho Hcu Hn Hrq Hpv Hcv];
      try congruence.
    - destruct Hcs as [(_ & _ & b & Hp)|(_ & _ & [Hp|Hp])]; congruence.
    - rewrite Hx in Hpv. inversion Hpv.
    - destruct Hcs as [[Hc _]|[[Hc|(b & Hc)] _]]; congruence.
    - destruct Hcs as [(Hc & _)|(Hc & _)]; congruence.
    - rewrite Hx in Hcv. inversion Hcv.
  Qed.
  Lemma inv_progress s : inv s -> complete epochs s \/ exists s', step_in_time epochs s s'.
  Proof.
    intros I. destruct s as [m p c o cu]. unfold step_in_time, started, in_time, complete. cbn [ds_ prod cons_ out cur].
    destruct I as [Hp Hc Ho|Hp He Hn Hf Ha Ho Hcu Hcs HE|e HeE Ho Hcu Hsp Hcs|e ds pre y rest n HeE Hnth Hds He Ha Hsp Ho Hcu Hn Hrq Hpv Hcv];
      cbn [ds_ prod cons_ out cur] in *.
    - now left.
    - right. destruct epochs as [|l todo]; [cbn in HE; lia|]. subst p. eexists. left. split; [reflexivity|easy].
    - right. destruct Hcs as [(-> & Hr & b & Hp)|(-> & Hr & [->| ->])].
      + eexists. right. split; [reflexivity|easy].
      + eexists. left. unfold step_p. cbn [ds_ prod]. rewrite Hr, Nat.eqb_refl. split; [reflexivity|easy].
      + unfold step_p. cbn [ds_ prod]. destruct (skipn (e - 1) epochs); eexists; left; (split; [reflexivity|easy]).
    - right. destruct Hcv as [-> -> Hr|Hr Hc1|b Hr Hc1 Hc2|Hr Hc1 Hc2|Hr Hc1 Hc2].
      + eexists. right. split; [reflexivity|easy].
      + eexists. right. split; [reflexivity|now right].
      + destruct b; [eexists; right; split; [reflexivity|easy]|]. destruct (Hc2 eq_refl) as [Hf Hk].
        destruct Hpv as [rest' H1 H2 H3|d l b H1 H2 H3 H4|H1 H2 H3|b H1 H2 H3]; try congruence; unfold step_p; cbn [ds_ prod].
        * destruct rest' as [|d l]; [eexists; left; split; [reflexivity|easy]|]. rewrite H3, H2. cbn [negb orb].
          destruct (requested m + cached_max <? next_add m + 1); [destruct (requested m + cached_min <? next_add m + 1)|]; eexists; left; (split; [reflexivity|easy]).
        * destruct b.
          -- destruct (requested m + cached_min <? length pre + length y + 1); [destruct (final m || _)|]; eexists; left; (split; [reflexivity|easy]).
          -- specialize (H4 eq_refl). unfold cached_min in H4. lia.
      + unfold step_c. cbn [ds_ cons_]. destruct (n <? expected m); [|destruct (expected m <? n)]; eexists; right; (split; [reflexivity|now right]).
      + eexists. right. split; [reflexivity|now right].
  Qed.

  Lemma inv_prefix s : inv s -> out s = firstn (length (out s)) epochs /\
    (cons_ s = CDone \/ exists l more, nth_error epochs (length (out s)) = Some l /\ l = cur s ++ more).
  Proof.
    assert (F : forall e, 1 <= e <= E -> length (firstn (e - 1) epochs) = e - 1) by (intros e He; rewrite firstn_length; lia).
    assert (N : forall e, 1 <= e <= E -> exists l, nth_error epochs (e - 1) = Some l).
    { intros e He. destruct (nth_error epochs (e - 1)) eqn:X; [now eexists|]. apply nth_error_None in X. lia. }
    intros I. destruct I as [Hp Hc Ho|Hp He Hn Hf Ha Ho Hcu Hcs HE|e HeE Ho Hcu Hsp Hcs|e ds pre y rest n HeE Hnth Hds He Ha Hsp Ho Hcu Hn Hrq Hpv Hcv].
    - rewrite Ho. split; [now rewrite firstn_all|now left].
    - rewrite Ho, Hcu. split; [easy|]. right. destruct (N 1 ltac:(lia)) as (l & Hl). now exists l, l.
    - rewrite Ho, Hcu, F by lia. split; [easy|]. right. destruct (N e ltac:(lia)) as (l & Hl). now exists l, l.
    - rewrite Ho, Hcu, F by lia. split; [easy|]. right. exists ds, (skipn n ds). split; [easy|]. symmetry. apply firstn_skipn.
  Qed.

  (** * Termination *)
  Definition len (e : nat) : nat := match nth_error epochs (e - 1) with Some l => length l | None => 0 end.
  Definition tot_p (l : list (list D)) : nat := list_sum (map (fun ds => 2 * length ds + 3) l).
  Definition tot_c (l : list (list D)) : nat := list_sum (map (fun ds => 6 * length ds + 3) l).
  Definition rp (p : producer D) : nat :=
    match p with
    | PWaitEpoch _ todo _ => tot_p todo + 2
    | PInit _ todo => tot_p todo + 1
    | PAdd _ l todo => 2 * length l + 3 + tot_p todo
    | PWaitAdd _ _ _ l todo _ => 2 * length l + 4 + tot_p todo
    | PDone | PErr _ => 0
    end.
  Definition rc (c : consumer) : nat :=
    match c with
    | CInit e => tot_c (skipn (e - 1) epochs) + 1
    | CCall k e n => 6 * (len e - n) + 3 + tot_c (skipn e epochs) - match k with Check => 0 | Load => 2 | Get => 4 end
    | CWait k e n _ => 6 * (len e - n) + 2 + tot_c (skipn e epochs) - match k with Check => 0 | Load => 2 | Get => 4 end
    | CDone | CErr _ => 0
    end.
  Definition fp (p : producer D) : nat := match p with PWaitEpoch _ _ true | PWaitAdd _ _ _ _ _ true => 1 | _ => 0 end.
  Definition fc (c : consumer) : nat := match c with CWait _ _ _ true => 1 | _ => 0 end.
  Definition mu (s : state D) : nat := 3 * (rp (prod s) + rc (cons_ s)) + fp (prod s) + fc (cons_ s).

  Lemma rp_wake p : rp (wake_p p) = rp p. Proof. now destruct p. Qed.
  Lemma rc_wake c : rc (wake_c c) = rc c. Proof. now destruct c. Qed.
  Lemma fp_le p : fp p <= 1. Proof. destruct p as [? ? []| | |? ? ? ? ? []| |]; cbn; lia. Qed.
  Lemma fc_le c : fc c <= 1. Proof. destruct c as [| |? ? ? []| |]; cbn; lia. Qed.

  Lemma tot_p_cons l t : tot_p (l :: t) = 2 * length l + 3 + tot_p t. Proof. reflexivity. Qed.
  Lemma mu_step_p s s' : step_p s = Some s' -> mu s' < mu s.
  Proof.
    destruct s as [m p c o cu]. unfold step_p, mu. cbn [ds_ prod cons_ out cur].
    assert (Hw := fc_le (wake_c c)). assert (Hww := fc_le (wake_c (wake_c c))).
    destruct p as [e todo []|e todo|e [|d l] todo|e i d l todo []| |]; try discriminate.
    - destruct (returnn_epoch m) as [r|]; [destruct (e =? r); [|destruct (r <? e)]|]; intros [= <-]; cbn [ds_ prod cons_ out cur rp fp]; lia.
    - destruct todo as [|l todo]; intros [= <-]; cbn [ds_ prod cons_ out cur rp fp]; [cbn; lia|]. rewrite rc_wake, tot_p_cons. lia.
    - intros [= <-]. cbn [ds_ prod cons_ out cur]. rewrite rc_wake. destruct todo; cbn [rp fp length]; lia.
    - destruct (negb (ready m) || final m); [intros [= <-]; cbn; lia|].
      destruct (requested m + cached_max <? next_add m + 1); [destruct (requested m + cached_min <? next_add m + 1)|]; intros [= <-];
        cbn [ds_ prod cons_ out cur append rp fp length]; rewrite ?rc_wake; lia.
    - destruct (requested m + cached_min <? i + 1); [destruct (final m || negb (i + 1 =? next_add m))|]; intros [= <-];
        cbn [ds_ prod cons_ out cur append rp fp length]; rewrite ?rc_wake; lia.
  Qed.

  Lemma tot_skip e : 1 <= e <= E -> tot_c (skipn (e - 1) epochs) = 6 * len e + 3 + tot_c (skipn e epochs).
  Proof.
    intros He. unfold len. destruct (nth_error epochs (e - 1)) as [l|] eqn:H; [|apply nth_error_None in H; lia].
    rewrite (skipn_nth _ _ _ H). replace (S (e - 1)) with e by lia. reflexivity.
  Qed.

  Lemma check_weight (s : state D) k e n : (k <> Check -> n < len e) ->
    let s' := check E s k e n in
    prod s' = prod s /\ (rc (cons_ s') < rc (CWait k e n true) /\ fc (cons_ s') = 0 \/ cons_ s' = CWait k e n false).
  Proof.
    intros Hk. unfold check. destruct (can_pass (ds_ s) n) as [[|]|]; cbn [prod cons_]; [|split; [easy|now right]|].
    - destruct k; unfold after_call.
      + destruct (n <? next_add (ds_ s)); cbn [prod cons_].
        * split; [easy|left]. cbn [rc fc]. lia.
        * split; [easy|left]. destruct (e =? E); cbn [rc fc]; [lia|]. replace (S e - 1) with e by lia. lia.
      + specialize (Hk ltac:(easy)). cbn [prod cons_]. split; [easy|left]. cbn [rc fc]. lia.
      + specialize (Hk ltac:(easy)). destruct (get_seq (added (ds_ s)) n); cbn [prod cons_]; (split; [easy|left]); cbn [rc fc]; lia.
    - split; [easy|]. left. cbn [rc fc]. destruct k; [lia| |]; specialize (Hk ltac:(easy)); lia.
  Qed.
  Lemma wait_weight (s : state D) k e n : (k <> Check -> n < len e) ->
    let s' := wait_for_seq E s k e n in
    rp (prod s') = rp (prod s) /\ rc (cons_ s') <= rc (CWait k e n true) /\ fc (cons_ s') = 0.
  Proof.
    intros Hk. unfold wait_for_seq. destruct (requested (ds_ s) <? S n).
    - match goal with |- context [check E ?s0 k e n] => destruct (check_weight s0 k e n Hk) as [-> [[H1 H2]|H1]] end; cbn [prod].
      + rewrite rp_wake. split; [easy|]. split; [lia|easy].
      + rewrite rp_wake, H1. cbn [rc fc]. split; [easy|]. split; [lia|easy].
    - destruct (check_weight s k e n Hk) as [-> [[H1 H2]|H1]].
      + split; [easy|]. split; [lia|easy].
      + rewrite H1. cbn [rc fc]. split; [easy|]. split; [lia|easy].
  Qed.

  Lemma inv_pos s k e n : inv s -> (cons_ s = CCall k e n \/ exists b, cons_ s = CWait k e n b) -> k <> Check -> n < len e.
  Proof.
    intros I Hc Hk. destruct I as [Hp Hc' Ho|Hp He Hn Hf Ha Ho Hcu Hcs HE|e' HeE Ho Hcu Hsp Hcs|e' ds pre y rest n' HeE Hnth Hds He Ha Hsp Ho Hcu Hn Hrq Hpv Hcv].
    - destruct Hc as [Hc|(b & Hc)]; congruence.
    - destruct Hcs as [[Hc1 _]|[[Hc1|(b' & Hc1)] _]], Hc as [Hc|(b & Hc)]; congruence.
    - destruct Hcs as [(Hc1 & _)|(Hc1 & _)], Hc as [Hc|(b & Hc)]; congruence.
    - assert (Hl : len e' = length pre + (length y + length rest)) by (unfold len; rewrite Hnth, Hds, !app_length; lia).
      destruct Hc as [Hc|(b & Hc)]; rewrite Hc in Hcv; inversion Hcv; subst; try easy; lia.
  Qed.
  Lemma mu_step_c s s' : inv s -> step_c E s = Some s' -> mu s' < mu s.
  Proof.
    intros I H. pose proof (inv_pos s) as Hpos. destruct s as [m p c o cu]. unfold step_c in H. unfold mu. cbn [ds_ prod cons_ out cur] in *.
    destruct c as [e|k e n|k e n []| |]; try discriminate.
    - injection H as <-. cbn [ds_ prod cons_ out cur]. rewrite rp_wake. pose proof (fp_le (wake_p p)).
      assert (1 <= e <= E) as He.
      { destruct I as [Hp Hc Ho|Hp He Hn Hf Ha Ho Hcu Hcs HE|e' HeE Ho Hcu Hsp Hcs|e' ds pre y rest n' HeE Hnth Hds He Ha Hsp Ho Hcu Hn Hrq Hpv Hcv]; cbn [cons_] in *.
        - discriminate.
        - destruct Hcs as [[Hc _]|[[Hc|(b & Hc)] _]]; try discriminate. injection Hc as ->. lia.
        - destruct Hcs as [(Hc & _)|(Hc & _)]; try discriminate. injection Hc as ->. lia.
        - inversion Hcv; subst. lia. }
      cbn [rc fc]. rewrite (tot_skip e He). lia.
    - assert (Hk : k <> Check -> n < len e) by (intros Hk; apply (Hpos k e n I); [now left|easy]).
      destruct k.
      + injection H as <-. match goal with |- context [wait_for_seq E ?s0 ?k e n] => destruct (wait_weight s0 k e n Hk) as (H1 & H2 & H3) end.
        cbn [prod] in H1. rewrite H1, H3. match goal with |- context [fp ?q] => pose proof (fp_le q) end. cbn [rc fc] in *. pose proof (fp_le (prod (wait_for_seq E {| ds_ := m; prod := p; cons_ := CCall Check e n; out := o; cur := cu |} Check e n))). lia.
      + specialize (Hk ltac:(easy)). assert (Hk' : Load <> Check -> n < len e) by easy.
        destruct (n <? expected m); [injection H as <-; cbn [ds_ prod cons_ out cur rc fc]; lia|].
        destruct (expected m <? n); injection H as <-;
          match goal with |- context [wait_for_seq E ?s0 ?k e n] => destruct (wait_weight s0 k e n Hk') as (H1 & H2 & H3); cbn [prod] in H1; rewrite H1, H3, ?rp_wake;
            pose proof (fp_le (prod (wait_for_seq E s0 k e n))) end; cbn [rc fc] in *; lia.
      + injection H as <-. match goal with |- context [wait_for_seq E ?s0 ?k e n] => destruct (wait_weight s0 k e n Hk) as (H1 & H2 & H3); cbn [prod] in H1; rewrite H1, H3;
            pose proof (fp_le (prod (wait_for_seq E s0 k e n))) end. specialize (Hk ltac:(easy)). cbn [rc fc] in *. lia.
    - assert (Hk : k <> Check -> n < len e) by (intros Hk; apply (Hpos k e n I); [right; now exists true|easy]).
      injection H as <-. match goal with |- context [check E ?s0 ?k e n] => destruct (check_weight s0 k e n Hk) as [-> [[H1 H2]|H1]] end; cbn [prod] in *.
      + rewrite H2. cbn [fc]. lia.
      + rewrite H1. cbn [rc fc]. lia.
  Qed.
  Lemma mu_run s n s' : inv s -> run (step_in_time epochs) s n s' -> n + mu s' <= mu s.
  Proof.
    intros I H. induction H as [s|s s1 n s2 H1 H2 IH]; [lia|].
    assert (inv s1) as I1 by (eapply inv_step; eauto). specialize (IH I1).
    assert (mu s1 < mu s) by (destruct H1 as [[H1 _]|[H1 _]]; [now apply mu_step_p|now apply mu_step_c]). lia.
  Qed.

  (** * With one epoch all steps are in time *)
  Lemma one_epoch s s' : E = 1 -> inv s -> step epochs s s' -> step_in_time epochs s s'.
  Proof.
    intros HE I [H|H]; [left|right]; (split; [exact H|]).
    - unfold started. destruct (prod s) as [e t b| | | | |] eqn:Hp0; try easy.
      destruct I as [Hp Hc Ho|Hp He Hn Hf Ha Ho Hcu Hcs HE'|e' HeE Ho Hcu Hsp Hcs|e' ds pre y rest n HeE Hnth Hds He Ha Hsp Ho Hcu Hn Hrq Hpv Hcv]; try congruence; [lia|].
      rewrite Hp0 in Hpv. inversion Hpv as [| | |b' H1 H2 H3]; subst. exfalso. apply H3. apply skipn_all2. lia.
    - unfold in_time. destruct (cons_ s) as [|k e n| | |] eqn:Hc0; try easy. left.
      destruct I as [Hp Hc Ho|Hp He Hn Hf Ha Ho Hcu Hcs HE'|e' HeE Ho Hcu Hsp Hcs|e' ds pre y rest n' HeE Hnth Hds He Ha Hsp Ho Hcu Hn Hrq Hpv Hcv]; try congruence.
      + destruct Hcs as [[Hc _]|[[Hc|(b & Hc)] _]]; congruence.
      + lia.
      + rewrite Hc0 in Hcv. inversion Hcv; subst; lia.
  Qed.
  Lemma one_run n s : E = 1 -> run (step epochs) (start epochs) n s -> run (step_in_time epochs) (start epochs) n s.
  Proof.
    intros HE H. assert (I : inv (start epochs)) by (apply inv_start; now destruct epochs).
    revert I H. generalize (start epochs). intros s0 I H. induction H as [s|s s1 n s2 H1 H2 IH]; [constructor|].
    pose proof (one_epoch _ _ HE I H1) as H1'. econstructor; [exact H1'|]. apply IH. eapply inv_step; eauto.
  Qed.

  (** * Sprint is never far ahead *)
  Definition near (s : state D) : Prop := Forall (fun x => fst x < requested (ds_ s) + cached_max) (added (ds_ s)).
  Lemma cleanup_incl (l : list (nat * D)) n y : In y (cleanup l n) -> In y l.
  Proof. induction l as [|(i, d) l IH]; cbn; [easy|]. destruct (n <=? i); cbn; tauto. Qed.
  Lemma near_check s k e n : near s -> near (check E s k e n).
  Proof.
    unfold near, check. intros H. destruct (can_pass (ds_ s) n) as [[|]|]; try exact H. destruct k; unfold after_call; cbn [ds_]; try exact H.
    - destruct (n <? next_add (ds_ s)); exact H.
    - destruct (get_seq (added (ds_ s)) n); exact H.
  Qed.
  Lemma near_wait s k e n : near s -> near (wait_for_seq E s k e n).
  Proof.
    intros H. unfold wait_for_seq. destruct (Nat.ltb_spec (requested (ds_ s)) (S n)); apply near_check; [|easy].
    unfold near in *. cbn. eapply Forall_impl; [|exact H]. intros y Hy. cbn in *. lia.
  Qed.
  Lemma near_step s s' : near s -> step epochs s s' -> near s'.
  Proof.
    intros N [H|H]; destruct s as [m p c o cu].
    - unfold step_p in H. unfold near in *. cbn [ds_ prod cons_ out cur] in *.
      destruct p as [e todo []|e todo|e [|d l] todo|e i d l todo []| |]; try discriminate.
      + destruct (returnn_epoch m) as [r|]; [destruct (e =? r); [|destruct (r <? e)]|]; injection H as <-; exact N.
      + destruct todo; injection H as <-; [exact N|constructor].
      + injection H as <-. exact N.
      + destruct (negb (ready m) || final m); [injection H as <-; exact N|].
        destruct (Nat.ltb_spec (requested m + cached_max) (next_add m + 1)) as [H1|H1].
        * destruct (Nat.ltb_spec (requested m + cached_min) (next_add m + 1)) as [H2|H2]; injection H as <-; cbn; [exact N|].
          unfold cached_max, cached_min in *; lia.
        * injection H as <-. cbn. apply Forall_app. split; [exact N|]. repeat constructor. cbn. lia.
      + destruct (Nat.ltb_spec (requested m + cached_min) (i + 1)) as [H1|H1].
        * destruct (final m || negb (i + 1 =? next_add m)); injection H as <-; exact N.
        * injection H as <-. cbn. apply Forall_app. split; [exact N|]. repeat constructor. cbn. unfold cached_max, cached_min in *. lia.
    - unfold step_c in H. cbn [ds_ prod cons_ out cur] in *. destruct c as [e|k e n|k e n []| |]; try discriminate.
      + injection H as <-. exact N.
      + destruct k.
        * injection H as <-. now apply near_wait.
        * destruct (n <? expected m); [injection H as <-; exact N|]. destruct (expected m <? n); injection H as <-; apply near_wait; [|exact N].
          unfold near in *. cbn in *. rewrite Forall_forall in *. intros y Hy. apply N. eapply cleanup_incl, Hy.
        * injection H as <-. now apply near_wait.
      + injection H as <-. now apply near_check.
  Qed.
  Lemma near_run s n s' : near s -> run (step epochs) s n s' -> near s'.
  Proof. intros I H. induction H as [s|s s1 n s2 H1 H2 IH]; [easy|]. apply IH. eapply near_step; eauto. Qed.
End P.

(** a schedule: true for the Sprint thread *)
Fixpoint exec {D} (E : nat) (l : list bool) (s : state D) : option (state D) :=
  match l with
  | [] => Some s
  | b :: l' => match (if b then step_p s else step_c E s) with Some s' => exec E l' s' | None => None end
  end.
Lemma exec_run {D} (epochs : list (list D)) l : forall s s', exec (length epochs) l s = Some s' -> run (step epochs) s (length l) s'.
Proof.
  induction l as [|b l IH]; intros s s'; cbn [exec length].
  - intros [= ->]. constructor.
  - destruct b.
    + destruct (step_p s) as [s1|] eqn:H; [|easy]. intros H2. econstructor; [left; exact H|now apply IH].
    + destruct (step_c (length epochs) s) as [s1|] eqn:H; [|easy]. intros H2. econstructor; [right; exact H|now apply IH].
Qed.
Lemma exec_reach {D} (epochs : list (list D)) l s : exec (length epochs) l (start epochs) = Some s -> reachable epochs (step epochs) s.
Proof. intros H. exists (length l). now apply exec_run. Qed.
