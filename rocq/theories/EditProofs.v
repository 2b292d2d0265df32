(** Proofs about the edit distance. *)
From Verif Require Import Base ListLemmas EditModel EditSpec.

(** ** Alignments *)
Inductive al {A} : nat -> list A -> list A -> Prop :=
| al_nil : al 0 [] []
| al_match : forall n x a b, al n a b -> al n (x :: a) (x :: b)
| al_sub : forall n x y a b, al n a b -> al (S n) (x :: a) (y :: b)
| al_ins : forall n y a b, al n a b -> al (S n) a (y :: b)
| al_del : forall n x a b, al n a b -> al (S n) (x :: a) b.

Lemma al_refl : forall A (a : list A), al 0 a a.
Proof. induction a; constructor; assumption. Qed.
Lemma al_app : forall A n m (a b c d : list A), al n a b -> al m c d -> al (n + m) (a ++ c) (b ++ d).
Proof. intros A n m a b c d H1 H2. induction H1; cbn [app Nat.add]; try (constructor; assumption). exact H2. Qed.
Lemma al_rev : forall A n (a b : list A), al n a b -> al n (rev a) (rev b).
Proof.
  intros A n a b H. induction H as [|n x a b H IH|n x y a b H IH|n y a b H IH|n x a b H IH]; cbn [rev]; [constructor| | | |].
  - replace n with (n + 0) by lia. apply al_app; [exact IH|apply al_refl].
  - replace (S n) with (n + 1) by lia. apply al_app; [exact IH|]. repeat constructor.
  - replace (S n) with (n + 1) by lia. rewrite <- (app_nil_r (rev a)). apply al_app; [exact IH|]. repeat constructor.
  - replace (S n) with (n + 1) by lia. rewrite <- (app_nil_r (rev b)). apply al_app; [exact IH|]. repeat constructor.
Qed.
Lemma al_sym : forall A n (a b : list A), al n a b -> al n b a.
Proof. intros A n a b H. induction H; constructor; assumption. Qed.
Lemma al_trans : forall A n (a b : list A), al n a b -> forall m c, al m b c -> exists k, k <= n + m /\ al k a c.
Proof.
  intros A n a b H. induction H as [|n x a b H IH|n x y a b H IH|n y a b H IH|n x a b H IH]; intros m c Hc.
  - exists m. split; [lia|exact Hc].
  - remember (x :: b) as xb eqn:E. revert E. induction Hc as [|m z b' c Hc IHc|m z z' b' c Hc IHc|m z b' c Hc IHc|m z b' c Hc IHc]; intros E; try discriminate E.
    + injection E as -> ->. destruct (IH _ _ Hc) as (k & Hk & K). exists k. split; [lia|constructor; exact K].
    + injection E as -> ->. destruct (IH _ _ Hc) as (k & Hk & K). exists (S k). split; [lia|constructor; exact K].
    + destruct (IHc E) as (k & Hk & K). exists (S k). split; [lia|constructor; exact K].
    + injection E as -> ->. destruct (IH _ _ Hc) as (k & Hk & K). exists (S k). split; [lia|constructor; exact K].
  - remember (y :: b) as xb eqn:E. revert E. induction Hc as [|m z b' c Hc IHc|m z z' b' c Hc IHc|m z b' c Hc IHc|m z b' c Hc IHc]; intros E; try discriminate E.
    + injection E as -> ->. destruct (IH _ _ Hc) as (k & Hk & K). exists (S k). split; [lia|constructor; exact K].
    + injection E as -> ->. destruct (IH _ _ Hc) as (k & Hk & K). exists (S k). split; [lia|constructor; exact K].
    + destruct (IHc E) as (k & Hk & K). exists (S k). split; [lia|constructor; exact K].
    + injection E as -> ->. destruct (IH _ _ Hc) as (k & Hk & K). exists (S k). split; [lia|constructor; exact K].
  - remember (y :: b) as xb eqn:E. revert E. induction Hc as [|m z b' c Hc IHc|m z z' b' c Hc IHc|m z b' c Hc IHc|m z b' c Hc IHc]; intros E; try discriminate E.
    + injection E as -> ->. destruct (IH _ _ Hc) as (k & Hk & K). exists (S k). split; [lia|constructor; exact K].
    + injection E as -> ->. destruct (IH _ _ Hc) as (k & Hk & K). exists (S k). split; [lia|constructor; exact K].
    + destruct (IHc E) as (k & Hk & K). exists (S k). split; [lia|constructor; exact K].
    + injection E as -> ->. destruct (IH _ _ Hc) as (k & Hk & K). exists k. split; [lia|exact K].
  - destruct (IH _ _ Hc) as (k & Hk & K). exists (S k). split; [lia|constructor; exact K].
Qed.
Lemma edit_al : forall A (a b : list A), edit a b -> al 1 a b.
Proof. intros A a b H. destruct H; (replace 1 with (0 + 1) by lia; apply al_app; [apply al_refl|]); constructor; apply al_refl. Qed.
Lemma edits_al : forall A n (a b : list A), edits n a b -> exists k, k <= n /\ al k a b.
Proof.
  intros A n a b H. induction H as [a|n a b c H1 _ (k & Hk & K)]; [exists 0; split; [lia|apply al_refl]|].
  destruct (al_trans _ _ _ _ (edit_al _ _ _ H1) _ _ K) as (j & Hj & J). exists j. split; [lia|exact J].
Qed.
Lemma edits_cons : forall A n (x : A) a b, edits n a b -> edits n (x :: a) (x :: b).
Proof.
  intros A n x a b H. induction H as [a|n a b c H1 _ IH]; [constructor|]. econstructor; [|exact IH].
  destruct H1 as [u z v|u z v|u z z' v]; rewrite !app_comm_cons; constructor.
Qed.
Lemma edits_snoc : forall A n (a b c : list A), edits n a b -> edit b c -> edits (S n) a c.
Proof. intros A n a b c H. induction H as [a|n a b d H1 _ IH]; intros E; [econstructor; [exact E|constructor]|]. econstructor; [exact H1|apply IH; exact E]. Qed.
Lemma al_edits : forall A n (a b : list A), al n a b -> edits n a b.
Proof.
  intros A n a b H. induction H as [|n x a b H IH|n x y a b H IH|n y a b H IH|n x a b H IH]; [constructor|apply edits_cons; exact IH| | |].
  - econstructor; [apply (edit_substitute [] x y a)|apply edits_cons; exact IH].
  - eapply edits_snoc; [exact IH|apply (edit_insert [] y b)].
  - econstructor; [apply (edit_delete [] x a)|exact IH].
Qed.

(** ** The recursion of the table *)
Section Dist.
Context {A : Type} (eqb : A -> A -> bool) (eqb_spec : forall x y, eqb x y = true <-> x = y).
Fixpoint dist (a : list A) : list A -> nat :=
  match a with
  | [] => fun b => length b
  | x :: a' =>
      fix go (b : list A) : nat :=
        match b with
        | [] => length a
        | y :: b' => Nat.min (Nat.min (dist a' b + 1) (go b' + 1)) (dist a' b' + (if eqb x y then 0 else 1))
        end
  end.
Lemma dist_nil_l : forall b, dist [] b = length b.
Proof. reflexivity. Qed.
Lemma dist_nil_r : forall a, dist a [] = length a.
Proof. destruct a; reflexivity. Qed.
Lemma dist_cons : forall x a y b, dist (x :: a) (y :: b) =
  Nat.min (Nat.min (dist a (y :: b) + 1) (dist (x :: a) b + 1)) (dist a b + (if eqb x y then 0 else 1)).
Proof. reflexivity. Qed.
Lemma al_all_ins : forall b : list A, al (length b) [] b.
Proof. induction b; cbn [length]; constructor; assumption. Qed.
Lemma al_all_del : forall a : list A, al (length a) a [].
Proof. induction a; cbn [length]; constructor; assumption. Qed.
Lemma dist_al : forall a b, al (dist a b) a b.
Proof.
  induction a as [|x a IHa]; intros b; [apply al_all_ins|]. induction b as [|y b IHb]; [rewrite dist_nil_r; apply al_all_del|].
  rewrite dist_cons. destruct (Nat.min_spec (Nat.min (dist a (y :: b) + 1) (dist (x :: a) b + 1)) (dist a b + (if eqb x y then 0 else 1))) as [[_ ->]|[_ ->]].
  - destruct (Nat.min_spec (dist a (y :: b) + 1) (dist (x :: a) b + 1)) as [[_ ->]|[_ ->]]; rewrite Nat.add_1_r; constructor; [apply IHa|exact IHb].
  - destruct (eqb x y) eqn:E; [apply eqb_spec in E; subst; rewrite Nat.add_0_r; constructor; apply IHa|rewrite Nat.add_1_r; constructor; apply IHa].
Qed.
Lemma dist_le_ins : forall a y b, dist a (y :: b) <= dist a b + 1.
Proof. intros a y b. destruct a; [cbn; lia|]. rewrite dist_cons. lia. Qed.
Lemma dist_le_del : forall x a b, dist (x :: a) b <= dist a b + 1.
Proof. intros x a b. destruct b; [rewrite !dist_nil_r; cbn; lia|]. rewrite dist_cons. lia. Qed.
Lemma dist_min : forall n a b, al n a b -> dist a b <= n.
Proof.
  intros n a b H. induction H as [|n x a b H IH|n x y a b H IH|n y a b H IH|n x a b H IH].
  - reflexivity.
  - rewrite dist_cons. replace (eqb x x) with true by (symmetry; apply eqb_spec; reflexivity). lia.
  - rewrite dist_cons. destruct (eqb x y); lia.
  - pose proof (dist_le_ins a y b). lia.
  - pose proof (dist_le_del x a b). lia.
Qed.
Theorem dist_is : forall a b, is_edit_distance a b (dist a b).
Proof.
  intros a b. split; [apply al_edits, dist_al|]. intros m H. apply edits_al in H. destruct H as (k & Hk & K). apply dist_min in K. lia.
Qed.
Lemma dist_rev : forall a b, dist (rev a) (rev b) = dist a b.
Proof.
  intros a b. apply Nat.le_antisymm; [apply dist_min, al_rev, dist_al|].
  apply dist_min. pose proof (al_rev _ _ _ _ (dist_al (rev a) (rev b))) as H. rewrite !rev_involutive in H. exact H.
Qed.
Lemma dist_sym : forall a b, dist a b = dist b a.
Proof. intros a b. apply Nat.le_antisymm; apply dist_min, al_sym, dist_al. Qed.
End Dist.

(** ** The buffer *)
Lemma nth_slice : forall A (l : list A) st sz k d, nth k (slice l st sz) d = if k <? sz then nth (st + k) l d else d.
Proof.
  intros A l st sz k d. unfold slice. destruct (Nat.ltb_spec k sz) as [H|H].
  - rewrite <- (firstn_skipn st l) at 2.
    destruct (Nat.le_gt_cases st (length l)) as [Hl|Hl].
    + rewrite app_nth2 by (rewrite firstn_length; lia). rewrite firstn_length. replace (st + k - Nat.min st (length l)) with k by lia.
      rewrite <- (firstn_skipn sz (skipn st l)) at 2. destruct (Nat.le_gt_cases (length (firstn sz (skipn st l))) k) as [Hk|Hk].
      * rewrite nth_overflow by exact Hk. symmetry. apply nth_overflow. rewrite firstn_skipn. rewrite firstn_length in Hk. lia.
      * rewrite app_nth1 by exact Hk. reflexivity.
    + rewrite skipn_all2 by lia. rewrite firstn_nil. rewrite !nth_overflow; [reflexivity| |]; rewrite ?app_length, ?firstn_length; cbn [length]; lia.
  - apply nth_overflow. rewrite firstn_length. lia.
Qed.
Lemma assign_length : forall A (l : list A) st v, st + length v <= length l -> length (assign_slice l st v) = length l.
Proof. intros A l st v H. unfold assign_slice. rewrite !app_length, firstn_length, skipn_length. lia. Qed.
Lemma nth_assign : forall A (l : list A) st v i d, st + length v <= length l ->
  nth i (assign_slice l st v) d = if (st <=? i) && (i <? st + length v) then nth (i - st) v d else nth i l d.
Proof.
  intros A l st v i d H. unfold assign_slice. destruct (Nat.leb_spec st i) as [H1|H1]; cbn [andb].
  - rewrite app_nth2 by (rewrite firstn_length; lia). rewrite firstn_length. replace (i - Nat.min st (length l)) with (i - st) by lia.
    destruct (Nat.ltb_spec i (st + length v)) as [H2|H2]; [rewrite app_nth1 by lia; reflexivity|].
    rewrite app_nth2 by lia. rewrite <- (firstn_skipn (st + length v) l) at 2.
    rewrite (app_nth2 (firstn (st + length v) l)) by (rewrite firstn_length; lia). rewrite firstn_length. f_equal. lia.
  - rewrite app_nth1 by (rewrite firstn_length; lia). rewrite <- (firstn_skipn st l) at 2. rewrite app_nth1 by (rewrite firstn_length; lia). reflexivity.
Qed.

Section Run.
Variables a b : list Z.
Let na := length a.
Let nb := length b.
Definition get (buf : list Z) (m k : nat) : Z := nth (buffer_offset nb m + k) buf 0%Z.
Definition D (i j : nat) : Z := Z.of_nat (dist Z.eqb (rev (firstn i a)) (rev (firstn j b))).
Lemma D_0_l : forall j, j <= nb -> D 0 j = Z.of_nat j.
Proof. intros j H. unfold D. cbn [firstn rev]. rewrite dist_nil_l, rev_length, firstn_length. f_equal. unfold nb in H. lia. Qed.
Lemma D_0_r : forall i, i <= na -> D i 0 = Z.of_nat i.
Proof. intros i H. unfold D. cbn [firstn rev]. rewrite dist_nil_r, rev_length, firstn_length. f_equal. unfold na in H. lia. Qed.
Lemma rev_firstn_S : forall (l : list Z) i, i < length l -> rev (firstn (S i) l) = nth i l 0%Z :: rev (firstn i l).
Proof.
  intros l i H. replace (firstn (S i) l) with (firstn i l ++ [nth i l 0%Z]); [rewrite rev_app_distr; reflexivity|].
  revert i H. induction l as [|x l IH]; intros i H; [cbn in H; lia|]. destruct i as [|i]; [reflexivity|]. cbn [firstn nth app]. f_equal. apply IH. cbn in H. lia.
Qed.
Lemma D_S : forall i j, i < na -> j < nb -> D (S i) (S j) =
  Z.min (Z.min (D i (S j) + 1) (D (S i) j + 1)) (D i j + (if (nth i a 0 =? nth j b 0)%Z then 0 else 1))%Z.
Proof.
  intros i j Hi Hj. unfold D. rewrite !rev_firstn_S by assumption. rewrite dist_cons. destruct (nth i a 0 =? nth j b 0)%Z; lia.
Qed.

Lemma diagonal_length : forall u p p2 x y, length (diagonal nb u p p2 x y) = nb.
Proof. intros. unfold diagonal. rewrite map_length, seq_length. reflexivity. Qed.
Lemma step_get : forall ax by_ u buf m k, length buf = 3 * (nb + 1) -> m < 3 -> k <= nb ->
  get (step nb ax by_ u buf) m k =
    if m =? (u + 2) mod 3 then
      if k <? nb then diagonal_entry nb u k (get buf ((u + 1) mod 3) k) (get buf ((u + 1) mod 3) (k + 1)) (get buf (u mod 3) (k + 1)) (nth (u - 1 + k) ax 0%Z) (nth k by_ 0%Z)
      else Z.of_nat u
    else get buf m k.
Proof.
  intros ax by_ u buf m k Hl Hm Hk. unfold get, step.
  assert (Hc : (u + 2) mod 3 < 3) by (apply Nat.mod_upper_bound; discriminate).
  assert (Hb : buffer_offset nb ((u + 2) mod 3) + nb + 1 <= length buf) by (rewrite Hl; unfold buffer_offset; nia).
  rewrite nth_assign by (rewrite assign_length; rewrite ?diagonal_length; cbn [length]; lia).
  rewrite nth_assign by (rewrite diagonal_length; lia). rewrite diagonal_length. cbn [length].
  destruct (Nat.eqb_spec m ((u + 2) mod 3)) as [-> |Hne].
  - destruct (Nat.ltb_spec k nb) as [Hlt|Hge].
    + replace (buffer_offset nb ((u + 2) mod 3) + nb <=? buffer_offset nb ((u + 2) mod 3) + k) with false by (symmetry; apply Nat.leb_gt; lia). cbn [andb].
      replace (buffer_offset nb ((u + 2) mod 3) <=? buffer_offset nb ((u + 2) mod 3) + k) with true by (symmetry; apply Nat.leb_le; lia).
      replace (buffer_offset nb ((u + 2) mod 3) + k <? buffer_offset nb ((u + 2) mod 3) + nb) with true by (symmetry; apply Nat.ltb_lt; lia). cbn [andb].
      replace (buffer_offset nb ((u + 2) mod 3) + k - buffer_offset nb ((u + 2) mod 3)) with k by lia.
      unfold diagonal. erewrite (nth_indep _ 0%Z); [|rewrite map_length, seq_length; exact Hlt].
      rewrite (map_nth (fun k => diagonal_entry nb u k _ _ _ _ _) (seq 0 nb) 0). rewrite seq_nth by exact Hlt. cbn [Nat.add].
      rewrite !nth_slice. replace (k <? nb) with true by (symmetry; apply Nat.ltb_lt; exact Hlt).
      replace (0 + k <? nb + 1) with true by (symmetry; apply Nat.ltb_lt; lia). replace (1 + k <? nb + 1) with true by (symmetry; apply Nat.ltb_lt; lia).
      cbn [Nat.add]. rewrite (Nat.add_1_r k). reflexivity.
    + replace k with nb by lia. replace (buffer_offset nb ((u + 2) mod 3) + nb <=? buffer_offset nb ((u + 2) mod 3) + nb) with true by (symmetry; apply Nat.leb_le; lia).
      replace (buffer_offset nb ((u + 2) mod 3) + nb <? buffer_offset nb ((u + 2) mod 3) + nb + 1) with true by (symmetry; apply Nat.ltb_lt; lia). cbn [andb].
      rewrite Nat.sub_diag. reflexivity.
  - set (c := (u + 2) mod 3) in *. assert (Hsep : buffer_offset nb m + k < buffer_offset nb c \/ buffer_offset nb c + nb < buffer_offset nb m + k) by (unfold buffer_offset; nia).
    replace ((buffer_offset nb c + nb <=? buffer_offset nb m + k) && (buffer_offset nb m + k <? buffer_offset nb c + nb + 1)) with false by lia.
    replace ((buffer_offset nb c <=? buffer_offset nb m + k) && (buffer_offset nb m + k <? buffer_offset nb c + nb)) with false by lia. reflexivity.
Qed.
Lemma step_length : forall ax by_ u buf, length buf = 3 * (nb + 1) -> length (step nb ax by_ u buf) = 3 * (nb + 1).
Proof.
  intros ax by_ u buf Hl. assert (Hc : (u + 2) mod 3 < 3) by (apply Nat.mod_upper_bound; discriminate).
  assert (Hb : buffer_offset nb ((u + 2) mod 3) + nb + 1 <= length buf) by (rewrite Hl; unfold buffer_offset; nia).
  unfold step. rewrite assign_length; rewrite assign_length; rewrite ?diagonal_length; cbn [length]; lia.
Qed.

Lemma mod3 : forall u, (S u + 1) mod 3 = (u + 2) mod 3 /\ S u mod 3 = (u + 1) mod 3 /\ (u + 2) mod 3 <> (S u + 2) mod 3.
Proof.
  intros u. split; [f_equal; lia|]. split; [f_equal; lia|]. replace (S u + 2) with (u + 0 + 1 * 3) by lia. rewrite Nat.mod_add by discriminate. rewrite Nat.add_0_r.
  pose proof (Nat.div_mod u 3 ltac:(discriminate)). pose proof (Nat.div_mod (u + 2) 3 ltac:(discriminate)). intros E. rewrite E in H0. lia.
Qed.
(** The last two diagonals hold the table, as far as it lies inside the rows. *)
Definition inv (u : nat) (buf : list Z) : Prop :=
  length buf = 3 * (nb + 1) /\
  forall v k, v = u \/ S v = u -> k <= nb -> nb - k <= v -> v - (nb - k) <= na -> get buf ((v + 2) mod 3) k = D (v - (nb - k)) (nb - k).
Lemma inv_0 : inv 0 (repeat 0%Z (3 * (nb + 1))).
Proof.
  split; [apply repeat_length|]. intros v k [-> |Hv] Hk H1 H2; [|discriminate Hv].
  replace (nb - k) with 0 by lia. cbn [Nat.sub]. rewrite D_0_l by lia. unfold get. apply nth_repeat.
Qed.
Lemma nth_pad : forall i, i < na -> nth (nb + i) (pad_both a nb) 0%Z = nth i a 0%Z.
Proof.
  intros i H. unfold pad_both. rewrite app_nth2 by (rewrite repeat_length; lia). rewrite repeat_length. replace (nb + i - nb) with i by lia. apply app_nth1. exact H.
Qed.
Lemma nth_flip : forall k, k < nb -> nth k (rev b) 0%Z = nth (nb - k - 1) b 0%Z.
Proof. intros k H. rewrite rev_nth by exact H. f_equal. unfold nb. lia. Qed.
Lemma inv_step : forall u buf, inv u buf -> inv (S u) (step nb (pad_both a nb) (rev b) (S u) buf).
Proof.
  intros u buf (Hl & H). split; [apply step_length; exact Hl|]. intros v k Hv Hk H1 H2.
  rewrite step_get; [|exact Hl|apply Nat.mod_upper_bound; discriminate|exact Hk].
  destruct (mod3 u) as (M1 & M2 & M3). destruct Hv as [-> |Hv].
  - rewrite Nat.eqb_refl. destruct (Nat.ltb_spec k nb) as [Hlt|Hge].
    + unfold diagonal_entry. destruct (Z.gtb_spec (Z.of_nat k) (Z.of_nat nb - Z.of_nat (S u))) as [Hm|Hm].
      * rewrite M1, M2. set (j := nb - k - 1). set (i := S u - (nb - k) - 1).
        replace (S u - (nb - k)) with (S i) by lia. replace (nb - k) with (S j) by lia. rewrite D_S by lia.
        assert (G1 : get buf ((u + 2) mod 3) k = D i (S j)).
        { rewrite (H u k); [f_equal; lia|left; reflexivity|exact Hk|lia|lia]. }
        assert (G2 : get buf ((u + 2) mod 3) (k + 1) = D (S i) j).
        { rewrite (H u (k + 1)); [f_equal; lia|left; reflexivity|lia|lia|lia]. }
        assert (G3 : get buf ((u + 1) mod 3) (k + 1) = D i j).
        { replace (u + 1) with ((u - 1) + 2) by lia. rewrite (H (u - 1) (k + 1)); [f_equal; lia|right; lia|lia|lia|lia]. }
        rewrite G1, G2, G3. replace (S u - 1 + k) with (nb + i) by lia. rewrite nth_pad by lia. rewrite nth_flip by exact Hlt. fold j. reflexivity.
      * replace (S u - (nb - k)) with 0 by lia. rewrite D_0_l by lia. f_equal. lia.
    + replace (nb - k) with 0 by lia. rewrite D_0_r by lia. f_equal; lia.
  - injection Hv as ->. replace ((u + 2) mod 3 =? (S u + 2) mod 3) with false by (symmetry; apply Nat.eqb_neq; exact M3).
    apply H; [left; reflexivity|exact Hk|exact H1|exact H2].
Qed.

Lemma result_at : forall la lb u buf r, inv u buf -> la <= na -> lb <= nb ->
  take_result nb la lb u buf r = if u =? la + lb then D la lb else r.
Proof.
  intros la lb u buf r (Hl & H) Ha Hb. unfold take_result. destruct (Nat.eqb_spec u (la + lb)) as [-> |Hne].
  - replace (Z.of_nat nb + Z.of_nat la - Z.of_nat (la + lb) =? Z.of_nat nb - Z.of_nat lb)%Z with true by lia.
    assert (Hc : (la + lb + 2) mod 3 < 3) by (apply Nat.mod_upper_bound; discriminate).
    assert (Hin : buffer_offset nb ((la + lb + 2) mod 3) + (nb - lb) < length buf) by (rewrite Hl; unfold buffer_offset; nia).
    unfold gather_clip. replace (Z.to_nat _) with (buffer_offset nb ((la + lb + 2) mod 3) + (nb - lb)) by lia.
    pose proof (H (la + lb) (nb - lb)) as E. unfold get in E. rewrite E; [f_equal; lia|left; reflexivity|lia|lia|lia].
  - replace (Z.of_nat nb + Z.of_nat la - Z.of_nat u =? Z.of_nat nb - Z.of_nat lb)%Z with false by lia. reflexivity.
Qed.
Lemma loop_result : forall n u buf la lb r, inv u buf -> la <= na -> lb <= nb ->
  loop nb la lb (pad_both a nb) (rev b) (seq (S u) n) buf r = if (S u <=? la + lb) && (la + lb <? S u + n) then D la lb else r.
Proof.
  induction n as [|n IH]; intros u buf la lb r H Ha Hb.
  - cbn [seq loop]. replace ((S u <=? la + lb) && (la + lb <? S u + 0)) with false by lia. reflexivity.
  - cbn [seq loop]. rewrite IH; [|apply inv_step; exact H|exact Ha|exact Hb]. rewrite (result_at la lb (S u)); [|apply inv_step; exact H|exact Ha|exact Hb].
    destruct (Nat.eqb_spec (S u) (la + lb)) as [E|E].
    + replace ((S (S u) <=? la + lb) && (la + lb <? S (S u) + n)) with false by lia. replace ((S u <=? la + lb) && (la + lb <? S u + S n)) with true by lia. reflexivity.
    + replace ((S (S u) <=? la + lb) && (la + lb <? S (S u) + n)) with ((S u <=? la + lb) && (la + lb <? S u + S n)) by lia. reflexivity.
Qed.
Lemma distance_D : forall la lb, la <= na -> lb <= nb -> distance a b la lb = D la lb.
Proof.
  intros la lb Ha Hb. unfold distance. fold na nb. rewrite loop_result; [|exact inv_0|exact Ha|exact Hb].
  destruct (Nat.eqb_spec la 0) as [-> |Hla]; [destruct (Nat.eqb_spec lb 0) as [-> |Hlb]|]; cbn [andb].
  - rewrite D_0_l by lia. reflexivity.
  - replace ((1 <=? 0 + lb) && (0 + lb <? 1 + (na + nb))) with true by lia. reflexivity.
  - replace ((1 <=? la + lb) && (la + lb <? 1 + (na + nb))) with true by lia. reflexivity.
Qed.
End Run.
Lemma zeqb_spec : forall x y, (x =? y)%Z = true <-> x = y.
Proof. intros. apply Z.eqb_eq. Qed.
Theorem edit_distance_dist : forall a b la lb, la <= length a -> lb <= length b ->
  edit_distance a b la lb = Z.of_nat (dist Z.eqb (firstn la a) (firstn lb b)).
Proof.
  intros a b la lb Ha Hb. unfold edit_distance. destruct (length a <? length b).
  - rewrite distance_D by assumption. unfold D. rewrite (dist_rev _ zeqb_spec), (dist_sym _ zeqb_spec). reflexivity.
  - rewrite distance_D by assumption. unfold D. rewrite (dist_rev _ zeqb_spec). reflexivity.
Qed.
Theorem edit_distance_correct : forall a b la lb, la <= length a -> lb <= length b ->
  exists n, edit_distance a b la lb = Z.of_nat n /\ is_edit_distance (firstn la a) (firstn lb b) n.
Proof. intros a b la lb Ha Hb. eexists. split; [apply edit_distance_dist; assumption|apply (dist_is _ zeqb_spec)]. Qed.
