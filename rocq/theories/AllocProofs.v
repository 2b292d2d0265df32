From Verif Require Import Base ListLemmas AllocModel AllocSpec.
From Coq Require Import Sorted.
Local Open Scope nat_scope.

Section Proofs.
Context {F : Type}.
Variable zero : F.
Variable N : nat.
Variable data : nat -> list F.
Notation interval := (@interval F).
Notation seq_start := (seq_start data).
Notation chain := (chain N data).

(** ** Lists *)
Lemma pyget_mid : forall A (pre : list A) x l, pyget (pre ++ x :: l) (length pre) = Ok x.
Proof. intros A pre x l. unfold pyget. rewrite nth_error_app2 by lia. rewrite Nat.sub_diag. reflexivity. Qed.
Lemma pyget_mid' : forall A (pre : list A) y x l, pyget (pre ++ y :: x :: l) (S (length pre)) = Ok x.
Proof. intros A pre y x l. unfold pyget. rewrite nth_error_app2 by lia. replace (S (length pre) - length pre) with 1 by lia. reflexivity. Qed.
Lemma firstn_mid : forall A (pre l : list A), firstn (length pre) (pre ++ l) = pre.
Proof. intros A pre l. rewrite firstn_app, Nat.sub_diag, firstn_all. cbn. apply app_nil_r. Qed.
Lemma skipn_mid : forall A (pre l : list A), skipn (length pre) (pre ++ l) = l.
Proof. intros A pre l. rewrite skipn_app, Nat.sub_diag, skipn_all. reflexivity. Qed.
Lemma insert_mid : forall (pre : list interval) v l, insert_at (length pre) v (pre ++ l) = pre ++ v :: l.
Proof. intros pre v l. unfold insert_at. rewrite firstn_mid, skipn_mid. reflexivity. Qed.
Lemma insert_mid' : forall (pre : list interval) x v l, insert_at (S (length pre)) v (pre ++ x :: l) = pre ++ x :: v :: l.
Proof.
  intros pre x v l. replace (pre ++ x :: l) with ((pre ++ [x]) ++ l) by (rewrite <- app_assoc; reflexivity). replace (S (length pre)) with (length (pre ++ [x])) by (rewrite app_length; cbn; lia).
  rewrite insert_mid, <- app_assoc. reflexivity.
Qed.
Lemma del_mid : forall (pre : list interval) v l, del_at (length pre) (pre ++ v :: l) = pre ++ l.
Proof.
  intros pre v l. unfold del_at. rewrite firstn_mid. f_equal. replace (pre ++ v :: l) with ((pre ++ [v]) ++ l) by (rewrite <- app_assoc; reflexivity).
  replace (S (length pre)) with (length (pre ++ [v])) by (rewrite app_length; cbn; lia). apply skipn_mid.
Qed.
Lemma del_mid' : forall (pre : list interval) x v l, del_at (S (length pre)) (pre ++ x :: v :: l) = pre ++ x :: l.
Proof.
  intros pre x v l. replace (pre ++ x :: v :: l) with ((pre ++ [x]) ++ v :: l) by (rewrite <- app_assoc; reflexivity). replace (S (length pre)) with (length (pre ++ [x])) by (rewrite app_length; cbn; lia).
  rewrite del_mid, <- app_assoc. reflexivity.
Qed.
Lemma del_mid'' : forall (pre : list interval) x y v l, del_at (S (S (length pre))) (pre ++ x :: y :: v :: l) = pre ++ x :: y :: l.
Proof.
  intros pre x y v l. replace (pre ++ x :: y :: v :: l) with ((pre ++ [x]) ++ y :: v :: l) by (rewrite <- app_assoc; reflexivity). replace (S (length pre)) with (length (pre ++ [x])) by (rewrite app_length; cbn; lia).
  rewrite del_mid', <- app_assoc. reflexivity.
Qed.

(** ** Insertion *)
Definition new (a b : nat) : interval := (a, b, repeat zero (seq_start b - seq_start a)).
Definition flag0 (start ci ni : nat) : bool := (ci <=? start) && (start <? ni).
Definition flag1 (end_ ci ni : nat) : bool := (ci <? end_) && (end_ <=? ni).
Definition flag2 (start end_ ci ni : nat) : bool := ((ci <? start) && (ni <=? start)) || ((end_ <=? ci) && (end_ <? ni)).
Definition gap (start end_ ci ni : nat) : list interval * list nat * bool :=
  if negb (flag0 start ci ni) && negb (flag1 end_ ci ni) then
    if flag2 start end_ ci ni then ([], [], false) else (if ci =? ni then [] else [new ci ni], range ci ni, false)
  else if flag1 end_ ci ni then
    let v0 := if flag0 start ci ni then start else ci in ([new v0 end_], range v0 end_, true)
  else ([new start ni], range start ni, false).
Fixpoint ins (start end_ lo : nat) (mid : list interval) : list interval * list nat :=
  match mid with
  | [] => let '(g, s, _) := gap start end_ lo N in (g, s)
  | x :: r =>
      let '(g, s, b) := gap start end_ lo (i_start x) in
      if b then (g ++ x :: r, s) else let (m, t) := ins start end_ (i_end x) r in (g ++ x :: m, s ++ t)
  end.
Lemma insert_one_ne : forall pos a b al, a < b -> insert_one zero data pos a b al = (insert_at (S pos) (new a b) al, 1%Z).
Proof. intros pos a b al H. unfold insert_one. destruct (Nat.eqb_spec a b); [lia|reflexivity]. Qed.
Lemma advance_1 : forall i, advance i 1 = S (S i).
Proof. intros i. unfold advance. lia. Qed.
Lemma advance_0 : forall i, advance i 0 = S i.
Proof. intros i. unfold advance. lia. Qed.
Lemma advance_m1 : forall i, advance i (-1) = i.
Proof. intros i. unfold advance. lia. Qed.
Lemma ins_loop : forall start end_ mid fuel pre xc xl sel, start < end_ -> end_ <= N -> chain (i_end xc) mid -> i_start xl = N -> length mid + 2 <= fuel ->
  modify_loop zero data fuel true start end_ (length pre) (pre ++ xc :: mid ++ [xl]) sel =
    let (m, t) := ins start end_ (i_end xc) mid in Ok (pre ++ xc :: m ++ [xl], sel ++ t).
Proof.
  intros start end_ mid. induction mid as [|x r IH]; intros fuel pre xc xl sel Hse HeN Hc Hxl Hf; (destruct fuel as [|fuel]; [cbn in Hf; lia|]).
  - cbn [chain] in Hc. cbn [modify_loop]. replace (length pre <? length (pre ++ xc :: [] ++ [xl]) - 1) with true by (symmetry; apply Nat.ltb_lt; rewrite app_length; cbn; lia).
    cbn [app]. rewrite pyget_mid'. cbn [bind]. rewrite pyget_mid. cbn [bind]. rewrite Hxl. replace (i_end xc <=? N) with true by (symmetry; apply Nat.leb_le; exact Hc). cbn [assert_ bind].
    cbn [ins]. unfold gap. fold (flag0 start (i_end xc) N) (flag1 end_ (i_end xc) N) (flag2 start end_ (i_end xc) N).
    assert (Hend : forall fuel' p q s, modify_loop zero data (S fuel') true start end_ (S (length p)) (p ++ [q; xl]) s = Ok (p ++ [q; xl], s)).
    { intros fuel' p q s. cbn [modify_loop]. replace (S (length p) <? length (p ++ [q; xl]) - 1) with false by (symmetry; apply Nat.ltb_ge; rewrite app_length; cbn; lia). reflexivity. }
    destruct (negb (flag0 start (i_end xc) N) && negb (flag1 end_ (i_end xc) N)) eqn:E01.
    + destruct (flag2 start end_ (i_end xc) N) eqn:E2.
      * destruct fuel as [|fuel]; [cbn in Hf; lia|]. rewrite Hend. rewrite app_nil_r. reflexivity.
      * cbn [modify bind]. destruct (Nat.eqb_spec (i_end xc) N) as [E|E].
        -- unfold insert_one. rewrite (proj2 (Nat.eqb_eq _ _) E). destruct fuel as [|fuel]; [cbn in Hf; lia|]. rewrite advance_0. rewrite Hend. reflexivity.
        -- rewrite insert_one_ne by lia. rewrite advance_1, insert_mid'. destruct fuel as [|fuel]; [cbn in Hf; lia|].
           replace (pre ++ [xc; new (i_end xc) N; xl]) with ((pre ++ [xc]) ++ [new (i_end xc) N; xl]) by (rewrite <- app_assoc; reflexivity).
           replace (S (S (length pre))) with (S (length (pre ++ [xc]))) by (rewrite app_length; cbn; lia). rewrite Hend. rewrite <- app_assoc. reflexivity.
    + destruct (flag1 end_ (i_end xc) N) eqn:E1.
      * cbn [modify bind]. rewrite insert_one_ne, insert_mid'; [reflexivity|]. unfold flag0, flag1 in *. destruct ((i_end xc <=? start) && (start <? N)); lia.
      * cbn [modify bind]. rewrite insert_one_ne by (unfold flag0, flag1 in *; lia). rewrite insert_mid', advance_1. destruct fuel as [|fuel]; [cbn in Hf; lia|].
        replace (pre ++ [xc; new start N; xl]) with ((pre ++ [xc]) ++ [new start N; xl]) by (rewrite <- app_assoc; reflexivity).
        replace (S (S (length pre))) with (S (length (pre ++ [xc]))) by (rewrite app_length; cbn; lia). rewrite Hend. rewrite <- app_assoc. reflexivity.
  - cbn [chain] in Hc. destruct Hc as (Hx & Hd & Hc). cbn [modify_loop app].
    replace (length pre <? length (pre ++ xc :: x :: r ++ [xl]) - 1) with true by (symmetry; apply Nat.ltb_lt; rewrite app_length; cbn [length]; lia).
    rewrite pyget_mid'. cbn [bind]. rewrite pyget_mid. cbn [bind]. replace (i_end xc <=? i_start x) with true by (symmetry; apply Nat.leb_le; lia). cbn [assert_ bind].
    cbn [ins]. unfold gap. fold (flag0 start (i_end xc) (i_start x)) (flag1 end_ (i_end xc) (i_start x)) (flag2 start end_ (i_end xc) (i_start x)).
    assert (Hnext : forall p s, modify_loop zero data fuel true start end_ (length p) (p ++ x :: r ++ [xl]) s = (let (m, t) := ins start end_ (i_end x) r in Ok (p ++ x :: m ++ [xl], s ++ t))).
    { intros p s. apply IH; try assumption. cbn [length] in Hf. lia. }
    assert (H1 : forall s, modify_loop zero data fuel true start end_ (S (length pre)) (pre ++ xc :: x :: r ++ [xl]) s = (let (m, t) := ins start end_ (i_end x) r in Ok (pre ++ xc :: x :: m ++ [xl], s ++ t))).
    { intros s. specialize (Hnext (pre ++ [xc]) s). rewrite <- app_assoc, app_length in Hnext. cbn [length app] in Hnext. replace (length pre + 1) with (S (length pre)) in Hnext by lia. rewrite Hnext.
      destruct (ins start end_ (i_end x) r) as (m, t). rewrite <- app_assoc. reflexivity. }
    assert (H2 : forall v s, modify_loop zero data fuel true start end_ (S (S (length pre))) (pre ++ xc :: v :: x :: r ++ [xl]) s = (let (m, t) := ins start end_ (i_end x) r in Ok (pre ++ xc :: v :: x :: m ++ [xl], s ++ t))).
    { intros v s. specialize (Hnext (pre ++ [xc; v]) s). rewrite <- app_assoc, app_length in Hnext. cbn [length app] in Hnext. replace (length pre + 2) with (S (S (length pre))) in Hnext by lia. rewrite Hnext.
      destruct (ins start end_ (i_end x) r) as (m, t). rewrite <- app_assoc. reflexivity. }
    destruct (negb (flag0 start (i_end xc) (i_start x)) && negb (flag1 end_ (i_end xc) (i_start x))) eqn:E01.
    + destruct (flag2 start end_ (i_end xc) (i_start x)) eqn:E2.
      * rewrite H1. destruct (ins start end_ (i_end x) r) as (m, t). reflexivity.
      * cbn [modify bind]. destruct (Nat.eqb_spec (i_end xc) (i_start x)) as [E|E].
        -- unfold insert_one. rewrite (proj2 (Nat.eqb_eq _ _) E). rewrite advance_0, H1. destruct (ins start end_ (i_end x) r) as (m, t). rewrite <- app_assoc. reflexivity.
        -- rewrite insert_one_ne by lia. rewrite advance_1, insert_mid', H2. destruct (ins start end_ (i_end x) r) as (m, t). rewrite <- app_assoc. reflexivity.
    + destruct (flag1 end_ (i_end xc) (i_start x)) eqn:E1.
      * cbn [modify bind]. rewrite insert_one_ne, insert_mid'; [reflexivity|]. unfold flag0, flag1 in *. destruct ((i_end xc <=? start) && (start <? i_start x)); lia.
      * cbn [modify bind]. rewrite insert_one_ne by (unfold flag0, flag1 in *; lia). rewrite insert_mid', advance_1, H2. destruct (ins start end_ (i_end x) r) as (m, t). rewrite <- app_assoc. reflexivity.
Qed.

(** ** What the insertion gives *)
Fixpoint cov (al : list interval) (j : nat) : Prop := match al with [] => False | x :: r => i_start x <= j < i_end x \/ cov r j end.
Lemma cov_In : forall al j, cov al j <-> exists x, In x al /\ i_start x <= j < i_end x.
Proof.
  induction al as [|x al IH]; intros j; cbn [cov]; [split; [tauto|intros (x & [] & _)]|]. rewrite IH. split.
  - intros [H|(y & H1 & H2)]; [exists x; split; [left; reflexivity|exact H]|exists y; split; [right; exact H1|exact H2]].
  - intros (y & [<- |H1] & H2); [left; exact H2|right; exists y; auto].
Qed.
Lemma cov_app : forall a b j, cov (a ++ b) j <-> cov a j \/ cov b j.
Proof. induction a as [|x a IH]; intros b j; cbn [cov app]; [tauto|]. rewrite IH. tauto. Qed.
Lemma chain_cov : forall al lo j, chain lo al -> cov al j -> lo <= j < N.
Proof.
  induction al as [|x al IH]; intros lo j Hc Hj; [destruct Hj|]. cbn [AllocSpec.chain cov] in *. destruct Hc as (H1 & _ & Hc).
  assert (i_end x <= N). { clear -Hc. revert Hc. generalize (i_end x). induction al as [|y al IH]; intros lo Hc; cbn [AllocSpec.chain] in Hc; [exact Hc|]. destruct Hc as (H & _ & Hc). specialize (IH _ Hc). lia. }
  destruct Hj as [Hj|Hj]; [lia|]. specialize (IH _ _ Hc Hj). lia.
Qed.
Lemma chain_le : forall al lo, chain lo al -> lo <= N.
Proof. induction al as [|y al IH]; intros lo Hc; cbn [AllocSpec.chain] in Hc; [exact Hc|]. destruct Hc as (H & _ & Hc). specialize (IH _ Hc). lia. Qed.
Lemma seq_start_mono : forall a b, a <= b -> seq_start a <= seq_start b.
Proof. intros a b H. induction H as [|b H IH]; [lia|]. cbn [AllocModel.seq_start]. lia. Qed.
Lemma seq_start_S : forall j, seq_start (S j) = seq_start j + length (data j).
Proof. reflexivity. Qed.
Lemma in_range : forall a b j, In j (range a b) <-> a <= j < b.
Proof. intros a b j. unfold range. rewrite in_seq. lia. Qed.
Lemma seq_sorted : forall n a, StronglySorted lt (seq a n).
Proof. induction n as [|n IH]; intros a; [constructor|]. cbn [seq]. constructor; [apply IH|]. apply Forall_forall. intros x Hx. apply in_seq in Hx. lia. Qed.
Lemma sorted_app : forall a b, StronglySorted lt a -> StronglySorted lt b -> (forall x y, In x a -> In y b -> x < y) -> StronglySorted lt (a ++ b).
Proof.
  induction a as [|x a IH]; intros b Ha Hb H; [exact Hb|]. inversion Ha as [|? ? Ha' Hx]; subst. cbn [app]. constructor.
  - apply IH; [exact Ha'|exact Hb|]. intros u v Hu Hv. apply H; [right; exact Hu|exact Hv].
  - apply Forall_app. split; [exact Hx|]. apply Forall_forall. intros y Hy. apply H; [left; reflexivity|exact Hy].
Qed.
Lemma sorted_eq : forall a b, StronglySorted lt a -> StronglySorted lt b -> (forall j, In j a <-> In j b) -> a = b.
Proof.
  induction a as [|x a IH]; intros b Ha Hb H.
  - destruct b as [|y b]; [reflexivity|]. destruct (proj2 (H y) (or_introl eq_refl)).
  - destruct b as [|y b]; [destruct (proj1 (H x) (or_introl eq_refl))|]. inversion Ha as [|? ? Ha' Hx]; subst. inversion Hb as [|? ? Hb' Hy]; subst. rewrite Forall_forall in Hx, Hy.
    assert (x = y).
    { destruct (proj1 (H x) (or_introl eq_refl)) as [E|E]; [congruence|]. destruct (proj2 (H y) (or_introl eq_refl)) as [E'|E']; [congruence|]. specialize (Hx _ E'). specialize (Hy _ E). lia. }
    subst y. f_equal. apply IH; [exact Ha'|exact Hb'|]. intros j. split; intros Hj.
    + destruct (proj1 (H j) (or_intror Hj)) as [E|E]; [subst j; specialize (Hx _ Hj); lia|exact E].
    + destruct (proj2 (H j) (or_intror Hj)) as [E|E]; [subst j; specialize (Hy _ Hj); lia|exact E].
Qed.
Lemma filter_sorted : forall (f : nat -> bool) l, StronglySorted lt l -> StronglySorted lt (filter f l).
Proof.
  intros f l H. induction H as [|x l H IH Hx]; [constructor|]. cbn [filter]. destruct (f x); [|exact IH]. constructor; [exact IH|].
  apply Forall_forall. intros y Hy. apply filter_In in Hy. rewrite Forall_forall in Hx. apply Hx. apply Hy.
Qed.
Definition fresh_block (x : interval) : Prop := x = new (i_start x) (i_end x).
Lemma gap_spec : forall start end_ ci ni, start < end_ -> end_ <= N -> ci <= ni -> let '(g, s, b) := gap start end_ ci ni in
  (forall r, (forall lo, lo <= ni -> chain lo r) -> chain ci (g ++ r)) /\
  StronglySorted lt s /\ (forall j, In j s <-> ci <= j < ni /\ start <= j < end_) /\ (forall j, cov g j <-> In j s) /\ Forall fresh_block g /\ (b = true -> end_ <= ni).
Proof.
  intros start end_ ci ni Hse HeN Hcn.
  assert (Hone : forall a b, ci <= a -> a < b -> b <= ni -> (forall r, (forall lo, lo <= ni -> chain lo r) -> chain ci ([new a b] ++ r)) /\ (forall j, cov [new a b] j <-> In j (range a b)) /\ Forall fresh_block [new a b]).
  { intros a b H1 H2 H3. split; [|split].
    - intros r Hr. cbn [app AllocSpec.chain]. unfold new, i_start, i_end, i_data. cbn [fst snd]. rewrite repeat_length. split; [lia|]. split; [reflexivity|]. apply Hr. lia.
    - intros j. cbn [cov]. unfold new, i_start, i_end. cbn [fst snd]. rewrite in_range. tauto.
    - constructor; [reflexivity|constructor]. }
  unfold gap. destruct (negb (flag0 start ci ni) && negb (flag1 end_ ci ni)) eqn:E01.
  - destruct (flag2 start end_ ci ni) eqn:E2; unfold flag0, flag1, flag2 in *.
    + split; [intros r Hr; apply Hr; lia|]. split; [constructor|]. split; [intros j; cbn; lia|]. split; [intros j; cbn; tauto|]. split; [constructor|discriminate].
    + destruct (Nat.eqb_spec ci ni) as [E|E].
      * split; [intros r Hr; apply Hr; lia|]. split; [apply seq_sorted|]. split; [intros j; rewrite in_range; lia|]. split; [intros j; rewrite in_range; cbn; lia|]. split; [constructor|discriminate].
      * destruct (Hone ci ni ltac:(lia) ltac:(lia) ltac:(lia)) as (H1 & H2 & H3). split; [exact H1|]. split; [apply seq_sorted|]. split; [intros j; rewrite in_range; lia|]. split; [exact H2|]. split; [exact H3|discriminate].
  - destruct (flag1 end_ ci ni) eqn:E1.
    + unfold flag0, flag1 in *. set (v0 := if (ci <=? start) && (start <? ni) then start else ci). assert (Hv : ci <= v0 /\ v0 < end_ /\ start <= v0 /\ (v0 = start \/ v0 = ci)) by (unfold v0; destruct ((ci <=? start) && (start <? ni)) eqn:E0; lia).
      destruct (Hone v0 end_ ltac:(lia) ltac:(lia) ltac:(lia)) as (H1 & H2 & H3). split; [exact H1|]. split; [apply seq_sorted|]. split; [intros j; rewrite in_range; lia|]. split; [exact H2|]. split; [exact H3|lia].
    + unfold flag0, flag1 in *. destruct (Hone start ni ltac:(lia) ltac:(lia) ltac:(lia)) as (H1 & H2 & H3). split; [exact H1|]. split; [apply seq_sorted|]. split; [intros j; rewrite in_range; lia|]. split; [exact H2|]. split; [exact H3|discriminate].
Qed.
Theorem ins_spec : forall start end_ mid lo, start < end_ -> end_ <= N -> chain lo mid -> let '(m, t) := ins start end_ lo mid in
  chain lo m /\ StronglySorted lt t /\ (forall j, In j t <-> lo <= j /\ start <= j < end_ /\ ~ cov mid j) /\
  (forall j, cov m j <-> cov mid j \/ In j t) /\ (forall x, In x mid -> In x m) /\ (forall x, In x m -> In x mid \/ fresh_block x).
Proof.
  intros start end_ mid. induction mid as [|x r IH]; intros lo Hse HeN Hc.
  - cbn [ins]. cbn [AllocSpec.chain] in Hc. pose proof (gap_spec start end_ lo N Hse HeN Hc) as H. destruct (gap start end_ lo N) as ((g, s), b). destruct H as (H1 & H2 & H3 & H4 & H5 & _).
    split; [rewrite <- (app_nil_r g); apply H1; intros lo' Hlo; exact Hlo|]. split; [exact H2|]. split; [intros j; rewrite H3; cbn [cov]; intuition lia|]. split; [intros j; rewrite H4; cbn [cov]; tauto|].
    split; [intros x []|]. intros x Hx. right. rewrite Forall_forall in H5. apply H5. exact Hx.
  - cbn [ins]. cbn [AllocSpec.chain] in Hc. destruct Hc as (Hx & Hd & Hc). pose proof (gap_spec start end_ lo (i_start x) Hse HeN ltac:(lia)) as H.
    destruct (gap start end_ lo (i_start x)) as ((g, s), b). destruct H as (H1 & H2 & H3 & H4 & H5 & H6). rewrite Forall_forall in H5. destruct b.
    + specialize (H6 eq_refl). split; [apply H1; intros lo' Hlo; cbn [AllocSpec.chain]; split; [lia|]; split; [exact Hd|exact Hc]|]. split; [exact H2|].
      assert (Hr : forall j, cov r j -> i_end x <= j) by (intros j Hj; pose proof (chain_cov _ _ _ Hc Hj); lia).
      split; [intros j; rewrite H3; cbn [cov]; specialize (Hr j); split; [intros (Ha & Hb); split; [lia|]; split; [lia|]; intros [Hj|Hj]; [lia|apply Hr in Hj; lia]|lia]|]. split; [intros j; rewrite cov_app, H4; tauto|].
      split; [intros y Hy; apply in_or_app; right; exact Hy|]. intros y Hy. apply in_app_or in Hy. destruct Hy as [Hy|Hy]; [right; apply H5; exact Hy|left; exact Hy].
    + specialize (IH (i_end x) Hse HeN Hc). destruct (ins start end_ (i_end x) r) as (m, t). destruct IH as (I1 & I2 & I3 & I4 & I5 & I6).
      assert (Hr : forall j, cov r j -> i_end x <= j) by (intros j Hj; pose proof (chain_cov _ _ _ Hc Hj); lia).
      split; [apply H1; intros lo' Hlo; cbn [AllocSpec.chain]; split; [lia|]; split; [exact Hd|exact I1]|].
      split; [apply sorted_app; [exact H2|exact I2|]; intros u v Hu Hv; apply H3 in Hu; apply I3 in Hv; lia|].
      split; [intros j; rewrite in_app_iff, H3, I3; cbn [cov]; specialize (Hr j); split; [intros [(Ha & Hb)|(Ha & Hb & Hn)]; (split; [lia|]; split; [lia|]; intros [Hj|Hj]; [lia|]); [apply Hr in Hj; lia|tauto]|]; intros (Ha & Hb & Hn); destruct (le_lt_dec (i_start x) j); [right|left; lia]; split; [|tauto]; destruct (le_lt_dec (i_end x) j); [assumption|exfalso; apply Hn; left; lia]|].
      split; [intros j; rewrite cov_app, in_app_iff, H4; cbn [cov]; rewrite I4; tauto|].
      split; [intros y Hy; apply in_or_app; right; destruct Hy as [-> |Hy]; [left; reflexivity|right; apply I5; exact Hy]|].
      intros y Hy. apply in_app_or in Hy. destruct Hy as [Hy|[-> |Hy]]; [right; apply H5; exact Hy|left; left; reflexivity|]. destruct (I6 y Hy) as [Hy'|Hy']; [left; right; exact Hy'|right; exact Hy'].
Qed.

(** ** Removal *)
Definition pieces (x : interval) (v0 v1 : nat) : list interval :=
  let ci := i_start x in let ni := i_end x in
  if (v0 =? ci) && (v1 =? ni) then []
  else if v0 =? ci then [(v1, ni, skipn (seq_start v1 - seq_start ci) (i_data x))]
  else if v1 =? ni then [(ci, v0, firstn (seq_start v0 - seq_start ci) (i_data x))]
  else [(ci, v0, firstn (seq_start v0 - seq_start ci) (i_data x)); (v1, ni, skipn (seq_start v1 - seq_start ci) (i_data x))].
Lemma remove_mid : forall pre x r v0 v1, exists d, remove_one data (length pre) v0 v1 (pre ++ x :: r) = Ok (pre ++ pieces x v0 v1 ++ r, d) /\ advance (length pre) d = length (pre ++ pieces x v0 v1).
Proof.
  intros pre x r v0 v1. unfold remove_one. rewrite pyget_mid. cbn [bind]. unfold pieces. destruct ((v0 =? i_start x) && (v1 =? i_end x)).
  - exists (-1)%Z. rewrite del_mid, advance_m1. rewrite app_length. cbn [length app]. split; [reflexivity|lia].
  - destruct (v0 =? i_start x).
    + exists 0%Z. rewrite insert_mid, del_mid', advance_0, app_length. cbn [length app]. split; [reflexivity|lia].
    + destruct (v1 =? i_end x).
      * exists 0%Z. rewrite insert_mid, del_mid', advance_0, app_length. cbn [length app]. split; [reflexivity|lia].
      * exists 1%Z. rewrite insert_mid, insert_mid, del_mid'', advance_1, app_length. cbn [length app]. split; [reflexivity|lia].
Qed.
Fixpoint rem (start end_ : nat) (mid : list interval) : list interval * list nat * bool :=
  match mid with
  | [] => ([], [], false)
  | x :: r =>
      let ci := i_start x in let ni := i_end x in
      let '(m, t, b) := rem start end_ r in
      if negb (flag0 start ci ni) && negb (flag1 end_ ci ni) then
        if flag2 start end_ ci ni then (x :: m, t, b) else (m, range ci ni ++ t, b)
      else if flag1 end_ ci ni then
        let v0 := if flag0 start ci ni then start else ci in (pieces x v0 end_ ++ r, range v0 end_, true)
      else (pieces x start ni ++ m, range start ni ++ t, b)
  end.
Lemma pieces_all : forall x, pieces x (i_start x) (i_end x) = [].
Proof. intros x. unfold pieces. rewrite !Nat.eqb_refl. reflexivity. Qed.
Lemma rem_loop : forall start end_ mid fuel pre xl sel, start < end_ -> end_ <= N -> (exists lo, chain lo mid) -> i_start xl = N -> i_end xl = N -> length mid + 2 <= fuel ->
  modify_loop zero data fuel false start end_ (length pre) (pre ++ mid ++ [xl]) sel =
    let '(m, t, b) := rem start end_ mid in Ok (pre ++ m ++ (if b || (end_ <? N) then [xl] else []), sel ++ t).
Proof.
  intros start end_ mid. induction mid as [|x r IH]; intros fuel pre xl sel Hse HeN (lo & Hc) Hs He Hf; (destruct fuel as [|fuel]; [cbn in Hf; lia|]).
  - cbn [modify_loop app rem orb]. replace (length pre <? length (pre ++ [xl]) - 0) with true by (symmetry; apply Nat.ltb_lt; rewrite app_length; cbn; lia).
    rewrite pyget_mid. cbn [bind]. rewrite Hs, He. rewrite (Nat.leb_refl N). cbn [assert_ bind].
    replace ((N <=? start) && (start <? N)) with false by lia. replace ((N <? end_) && (end_ <=? N)) with false by lia. cbn [negb andb].
    replace ((N <? start) && (N <=? start) || (end_ <=? N) && (end_ <? N)) with (end_ <? N) by lia.
    assert (Hend : forall fuel' p s, modify_loop zero data (S fuel') false start end_ (length p) p s = Ok (p, s)).
    { intros fuel' p s. cbn [modify_loop]. replace (length p <? length p - 0) with false by (symmetry; apply Nat.ltb_ge; lia). reflexivity. }
    destruct fuel as [|fuel]; [cbn in Hf; lia|]. destruct (end_ <? N).
    + specialize (Hend fuel (pre ++ [xl]) sel). rewrite app_length in Hend. cbn [length] in Hend. replace (length pre + 1) with (S (length pre)) in Hend by lia. rewrite Hend, app_nil_r. reflexivity.
    + cbn [modify]. destruct (remove_mid pre xl [] N N) as (d & -> & Hd). cbn [bind]. rewrite Hd. assert (Hp : pieces xl N N = []) by (rewrite <- Hs at 1; rewrite <- He at 1; apply pieces_all).
      rewrite Hp. cbn [app]. rewrite !app_nil_r. rewrite Hend. unfold range. rewrite Nat.sub_diag. cbn [seq]. rewrite app_nil_r. reflexivity.
  - cbn [AllocSpec.chain] in Hc. destruct Hc as (Hx & Hd & Hc). cbn [modify_loop app rem].
    replace (length pre <? length (pre ++ x :: r ++ [xl]) - 0) with true by (symmetry; apply Nat.ltb_lt; rewrite app_length; cbn [length]; lia).
    rewrite pyget_mid. cbn [bind]. replace (i_start x <=? i_end x) with true by (symmetry; apply Nat.leb_le; lia). cbn [assert_ bind].
    fold (flag0 start (i_start x) (i_end x)) (flag1 end_ (i_start x) (i_end x)) (flag2 start end_ (i_start x) (i_end x)).
    assert (Hnext : forall p s, modify_loop zero data fuel false start end_ (length p) (p ++ r ++ [xl]) s = (let '(m, t, b) := rem start end_ r in Ok (p ++ m ++ (if b || (end_ <? N) then [xl] else []), s ++ t))).
    { intros p s. apply IH; try assumption; [eexists; exact Hc|]. cbn [length] in Hf. lia. }
    destruct (negb (flag0 start (i_start x) (i_end x)) && negb (flag1 end_ (i_start x) (i_end x))) eqn:E01.
    + destruct (flag2 start end_ (i_start x) (i_end x)) eqn:E2.
      * specialize (Hnext (pre ++ [x]) sel). rewrite <- app_assoc, app_length in Hnext. cbn [length app] in Hnext. replace (length pre + 1) with (S (length pre)) in Hnext by lia. rewrite Hnext.
        destruct (rem start end_ r) as ((m, t), b). rewrite <- app_assoc. reflexivity.
      * cbn [modify]. destruct (remove_mid pre x (r ++ [xl]) (i_start x) (i_end x)) as (d & -> & Hd'). cbn [bind]. rewrite Hd', pieces_all, app_nil_r. cbn [app]. rewrite Hnext.
        destruct (rem start end_ r) as ((m, t), b). rewrite <- app_assoc. reflexivity.
    + destruct (flag1 end_ (i_start x) (i_end x)) eqn:E1.
      * cbn [modify]. match goal with |- context [remove_one data _ ?v0 end_ _] => destruct (remove_mid pre x (r ++ [xl]) v0 end_) as (d & -> & Hd') end. cbn [bind].
        destruct (rem start end_ r) as ((m, t), b). cbn [orb]. rewrite <- app_assoc. reflexivity.
      * cbn [modify]. destruct (remove_mid pre x (r ++ [xl]) start (i_end x)) as (d & -> & Hd'). cbn [bind]. rewrite Hd'. rewrite app_assoc. rewrite Hnext.
        destruct (rem start end_ r) as ((m, t), b). rewrite <- !app_assoc. reflexivity.
Qed.

Definition slice (x : interval) (j : nat) : list F := firstn (length (data j)) (skipn (seq_start j - seq_start (i_start x)) (i_data x)).
Definition full (x : interval) : Prop := i_start x < i_end x /\ length (i_data x) = seq_start (i_end x) - seq_start (i_start x).
Lemma skipn_skipn2 : forall A (l : list A) a b, skipn a (skipn b l) = skipn (a + b) l.
Proof. intros A l a b. revert l. induction b as [|b IH]; intros l; [rewrite Nat.add_0_r; reflexivity|]. rewrite Nat.add_succ_r. destruct l as [|x l]; [rewrite !skipn_nil; reflexivity|]. cbn [skipn]. apply IH. Qed.
Lemma pieces_spec : forall x v0 v1 lo, full x -> lo <= i_start x -> i_start x <= v0 -> v0 < v1 -> v1 <= i_end x ->
  (forall r, (forall lo, lo <= i_end x -> chain lo r) -> chain lo (pieces x v0 v1 ++ r)) /\
  (forall j, cov (pieces x v0 v1) j <-> i_start x <= j < i_end x /\ ~ v0 <= j < v1) /\
  (forall y j, In y (pieces x v0 v1) -> i_start y <= j < i_end y -> slice y j = slice x j).
Proof.
  intros x v0 v1 lo (Hx & Hd) Hlo H0 H01 H1.
  pose proof (seq_start_mono _ _ H0) as M0. pose proof (seq_start_mono v0 v1 ltac:(lia)) as M1. pose proof (seq_start_mono _ _ H1) as M2.
  assert (Hl : forall d, d = firstn (seq_start v0 - seq_start (i_start x)) (i_data x) -> length d = seq_start v0 - seq_start (i_start x)) by (intros d ->; rewrite firstn_length, Hd; lia).
  assert (Hr : forall d, d = skipn (seq_start v1 - seq_start (i_start x)) (i_data x) -> length d = seq_start (i_end x) - seq_start v1) by (intros d ->; rewrite skipn_length, Hd; lia).
  assert (Sl : forall j, i_start x <= j < v0 -> slice (i_start x, v0, firstn (seq_start v0 - seq_start (i_start x)) (i_data x)) j = slice x j).
  { intros j Hj. change (firstn (length (data j)) (skipn (seq_start j - seq_start (i_start x)) (firstn (seq_start v0 - seq_start (i_start x)) (i_data x))) = firstn (length (data j)) (skipn (seq_start j - seq_start (i_start x)) (i_data x))). pose proof (seq_start_mono (S j) v0 ltac:(lia)) as M. rewrite seq_start_S in M. pose proof (seq_start_mono (i_start x) j ltac:(lia)) as M'.
    rewrite skipn_firstn_comm, firstn_firstn. f_equal. lia. }
  assert (Sr : forall j, v1 <= j < i_end x -> slice (v1, i_end x, skipn (seq_start v1 - seq_start (i_start x)) (i_data x)) j = slice x j).
  { intros j Hj. change (firstn (length (data j)) (skipn (seq_start j - seq_start v1) (skipn (seq_start v1 - seq_start (i_start x)) (i_data x))) = firstn (length (data j)) (skipn (seq_start j - seq_start (i_start x)) (i_data x))). pose proof (seq_start_mono v1 j ltac:(lia)) as M. rewrite skipn_skipn2. do 2 f_equal. lia. }
  unfold pieces. destruct ((v0 =? i_start x) && (v1 =? i_end x)) eqn:Ea.
  - split; [intros r Hr'; apply Hr'; lia|]. split; [intros j; cbn [cov]; lia|intros y j []].
  - destruct (Nat.eqb_spec v0 (i_start x)) as [Eb|Eb].
    + split; [|split].
      * intros r Hr'. cbn [app AllocSpec.chain]. change (lo <= v1 < i_end x /\ length (skipn (seq_start v1 - seq_start (i_start x)) (i_data x)) = seq_start (i_end x) - seq_start v1 /\ chain (i_end x) r). split; [lia|]. split; [apply Hr; reflexivity|]. apply Hr'. lia.
      * intros j. change (v1 <= j < i_end x \/ False <-> i_start x <= j < i_end x /\ ~ v0 <= j < v1). lia.
      * intros y j [<- |[]] Hj. apply Sr. exact Hj.
    + destruct (Nat.eqb_spec v1 (i_end x)) as [Ec|Ec].
      * split; [|split].
        -- intros r Hr'. change (lo <= i_start x < v0 /\ length (firstn (seq_start v0 - seq_start (i_start x)) (i_data x)) = seq_start v0 - seq_start (i_start x) /\ chain v0 r). split; [lia|]. split; [apply Hl; reflexivity|]. apply Hr'. lia.
        -- intros j. change (i_start x <= j < v0 \/ False <-> i_start x <= j < i_end x /\ ~ v0 <= j < v1). lia.
        -- intros y j [<- |[]] Hj. apply Sl. exact Hj.
      * split; [|split].
        -- intros r Hr'. change (lo <= i_start x < v0 /\ length (firstn (seq_start v0 - seq_start (i_start x)) (i_data x)) = seq_start v0 - seq_start (i_start x) /\
             v0 <= v1 < i_end x /\ length (skipn (seq_start v1 - seq_start (i_start x)) (i_data x)) = seq_start (i_end x) - seq_start v1 /\ chain (i_end x) r).
           split; [lia|]. split; [apply Hl; reflexivity|]. split; [lia|]. split; [apply Hr; reflexivity|]. apply Hr'. lia.
        -- intros j. change (i_start x <= j < v0 \/ v1 <= j < i_end x \/ False <-> i_start x <= j < i_end x /\ ~ v0 <= j < v1). lia.
        -- intros y j [<- |[<- |[]]] Hj; [apply Sl|apply Sr]; exact Hj.
Qed.
Lemma chain_lower : forall al lo lo', lo' <= lo -> chain lo al -> chain lo' al.
Proof. intros [|x al] lo lo' H Hc; cbn [AllocSpec.chain] in *; [lia|]. destruct Hc as (H1 & H2). split; [lia|exact H2]. Qed.
Theorem rem_spec : forall start end_ mid lo, start < end_ -> chain lo mid -> let '(m, t, b) := rem start end_ mid in
  chain lo m /\ StronglySorted lt t /\ (forall j, In j t <-> start <= j < end_ /\ cov mid j) /\
  (forall j, cov m j <-> cov mid j /\ ~ start <= j < end_) /\
  (forall y j, In y m -> i_start y <= j < i_end y -> exists x, In x mid /\ i_start x <= j < i_end x /\ slice y j = slice x j) /\
  (b = true <-> cov mid (end_ - 1)).
Proof.
  intros start end_ mid. induction mid as [|x r IH]; intros lo Hse Hc.
  - cbn [rem]. split; [exact Hc|]. split; [constructor|]. split; [intros j; cbn; tauto|]. split; [intros j; cbn; tauto|]. split; [intros y j []|]. cbn. split; [discriminate|tauto].
  - cbn [AllocSpec.chain] in Hc. destruct Hc as (Hx & Hd & Hc). cbn [rem]. specialize (IH (i_end x) Hse Hc). destruct (rem start end_ r) as ((m, t), b). destruct IH as (I1 & I2 & I3 & I4 & I5 & I6).
    assert (Hr : forall j, cov r j -> i_end x <= j) by (intros j Hj; pose proof (chain_cov _ _ _ Hc Hj); lia).
    assert (Hfull : full x) by (split; [lia|exact Hd]).
    destruct (negb (flag0 start (i_start x) (i_end x)) && negb (flag1 end_ (i_start x) (i_end x))) eqn:E01.
    + destruct (flag2 start end_ (i_start x) (i_end x)) eqn:E2; unfold flag0, flag1, flag2 in *.
      * assert (Hout : forall j, i_start x <= j < i_end x -> ~ start <= j < end_) by (intros j; lia).
        split; [cbn [AllocSpec.chain]; split; [lia|]; split; [exact Hd|exact I1]|]. split; [exact I2|].
        split; [intros j; rewrite I3; cbn [cov]; specialize (Hout j); tauto|]. split; [intros j; cbn [cov]; rewrite I4; specialize (Hout j); tauto|].
        split; [intros y j [<- |Hy] Hj; [exists x; split; [left; reflexivity|]; split; [exact Hj|reflexivity]|]; destruct (I5 y j Hy Hj) as (z & Hz & Hz'); exists z; split; [right; exact Hz|exact Hz']|].
        cbn [cov]. rewrite I6. split; [tauto|]. intros [H|H]; [|exact H]. destruct (Hout _ H). lia.
      * assert (Hin : forall j, i_start x <= j < i_end x -> start <= j < end_) by (intros j; lia).
        split; [eapply chain_lower; [|exact I1]; lia|]. split; [apply sorted_app; [apply seq_sorted|exact I2|]; intros u v Hu Hv; apply in_range in Hu; apply I3 in Hv; destruct Hv as (_ & Hv); apply Hr in Hv; lia|].
        split; [intros j; rewrite in_app_iff, in_range, I3; cbn [cov]; specialize (Hin j); tauto|]. split; [intros j; rewrite I4; cbn [cov]; specialize (Hin j); tauto|].
        split; [intros y j Hy Hj; destruct (I5 y j Hy Hj) as (z & Hz & Hz'); exists z; split; [right; exact Hz|exact Hz']|].
        cbn [cov]. rewrite I6. split; [tauto|]. intros [H|H]; [lia|exact H].
    + destruct (flag1 end_ (i_start x) (i_end x)) eqn:E1.
      * unfold flag0, flag1 in *. set (v0 := if (i_start x <=? start) && (start <? i_end x) then start else i_start x).
        assert (Hv : i_start x <= v0 /\ v0 < end_ /\ start <= v0 /\ (v0 = start \/ v0 = i_start x)) by (unfold v0; destruct ((i_start x <=? start) && (start <? i_end x)) eqn:E0; lia).
        destruct (pieces_spec x v0 end_ lo Hfull ltac:(lia) ltac:(lia) ltac:(lia) ltac:(lia)) as (P1 & P2 & P3).
        split; [apply P1; intros lo' Hlo'; eapply chain_lower; [|exact Hc]; exact Hlo'|]. split; [apply seq_sorted|].
        split; [intros j; rewrite in_range; cbn [cov]; specialize (Hr j); split; [intros Hj; split; [lia|left; lia]|intros (Hj & [Hj'|Hj']); [lia|apply Hr in Hj'; lia]]|].
        split; [intros j; rewrite cov_app, P2; cbn [cov]; specialize (Hr j); split; [intros [(Hj & Hj')|Hj]; [split; [left; exact Hj|lia]|split; [right; exact Hj|apply Hr in Hj; lia]]|intros ([Hj|Hj] & Hj'); [left; lia|right; exact Hj]]|].
        split.
        -- intros y j Hy Hj. apply in_app_or in Hy. destruct Hy as [Hy|Hy]; [|exists y; split; [right; exact Hy|split; [exact Hj|reflexivity]]].
           exists x. split; [left; reflexivity|]. split; [|apply P3; assumption]. assert (Hcv : cov (pieces x v0 end_) j) by (apply cov_In; exists y; auto). apply P2 in Hcv. apply Hcv.
        -- split; [intros _; left; lia|reflexivity].
      * unfold flag0, flag1 in *. destruct (pieces_spec x start (i_end x) lo Hfull ltac:(lia) ltac:(lia) ltac:(lia) ltac:(lia)) as (P1 & P2 & P3).
        split; [apply P1; intros lo' Hlo'; eapply chain_lower; [|exact I1]; exact Hlo'|].
        split; [apply sorted_app; [apply seq_sorted|exact I2|]; intros u v Hu Hv; apply in_range in Hu; apply I3 in Hv; destruct Hv as (_ & Hv); apply Hr in Hv; lia|].
        split; [intros j; rewrite in_app_iff, in_range, I3; cbn [cov]; split; [intros [Hj|Hj]; [split; [lia|left; lia]|tauto]|intros (Hj & [Hj'|Hj']); [left; lia|right; tauto]]|].
        split; [intros j; rewrite cov_app, P2, I4; cbn [cov]; specialize (Hr j); split; [intros [(Hj & Hj')|(Hj & Hj')]; [split; [left; exact Hj|lia]|split; [right; exact Hj|exact Hj']]|intros ([Hj|Hj] & Hj'); [left; lia|right; tauto]]|].
        split.
        -- intros y j Hy Hj. apply in_app_or in Hy. destruct Hy as [Hy|Hy].
           ++ exists x. split; [left; reflexivity|]. split; [|apply P3; assumption]. assert (Hcv : cov (pieces x start (i_end x)) j) by (apply cov_In; exists y; auto). apply P2 in Hcv. apply Hcv.
           ++ destruct (I5 y j Hy Hj) as (z & Hz & Hz'); exists z; split; [right; exact Hz|exact Hz'].
        -- cbn [cov]. rewrite I6. split; [tauto|]. intros [H|H]; [lia|exact H].
Qed.

(** ** The table *)
Notation table := (table zero N data).
Notation holds := (holds data).
Notation covered := (@covered F).
Notation coveredb := (@coveredb F).
Notation e0 := ((0, 0, [zero]) : interval).
Notation eN := ((N, N, [zero]) : interval).
Lemma covered_cov : forall al j, covered al j <-> cov al j.
Proof. intros al j. rewrite cov_In. reflexivity. Qed.
Lemma coveredb_spec : forall al j, coveredb al j = true <-> covered al j.
Proof.
  intros al j. unfold coveredb, covered. rewrite existsb_exists. split; intros (x & H1 & H2); exists x; (split; [exact H1|]); lia.
Qed.
Lemma cov_table : forall mid j, cov (e0 :: mid ++ [eN]) j <-> cov mid j.
Proof. intros mid j. cbn [cov]. rewrite cov_app. cbn [cov]. unfold i_start, i_end. cbn [fst snd]. intuition lia. Qed.
Lemma covered_table : forall mid j, covered (e0 :: mid ++ [eN]) j <-> cov mid j.
Proof. intros mid j. rewrite covered_cov. apply cov_table. Qed.
Lemma holds_slice : forall al j fs, holds al j fs <-> exists x, In x al /\ i_start x <= j < i_end x /\ slice x j = fs.
Proof. reflexivity. Qed.
Lemma holds_table : forall mid j fs, holds (e0 :: mid ++ [eN]) j fs <-> holds mid j fs.
Proof.
  intros mid j fs. rewrite !holds_slice. split; intros (x & H1 & H2 & H3).
  - destruct H1 as [<- |H1]; [unfold i_start, i_end in H2; cbn in H2; lia|]. apply in_app_or in H1. destruct H1 as [H1|[<- |[]]]; [exists x; auto|unfold i_start, i_end in H2; cbn in H2; lia].
  - exists x. split; [right; apply in_or_app; left; exact H1|auto].
Qed.
Lemma chain_unique : forall al lo x y j, chain lo al -> In x al -> In y al -> i_start x <= j < i_end x -> i_start y <= j < i_end y -> x = y.
Proof.
  induction al as [|z al IH]; intros lo x y j Hc Hx Hy Hjx Hjy; [destruct Hx|]. cbn [AllocSpec.chain] in Hc. destruct Hc as (Hz & _ & Hc).
  assert (Hr : forall w, In w al -> i_start w <= j < i_end w -> i_end z <= j) by (intros w Hw Hj; assert (Hcv : cov al j) by (apply cov_In; exists w; auto); pose proof (chain_cov _ _ _ Hc Hcv); lia).
  destruct Hx as [<- |Hx]; destruct Hy as [<- |Hy]; [reflexivity|specialize (Hr y Hy Hjy); lia|specialize (Hr x Hx Hjx); lia|eapply IH; eassumption].
Qed.
Lemma slice_zero : forall x j, fresh_block x -> i_start x <= j < i_end x -> slice x j = repeat zero (length (data j)).
Proof.
  intros x j Hx Hj. unfold slice. rewrite Hx. unfold new. unfold i_start at 1, i_data. cbn [fst snd].
  pose proof (seq_start_mono (i_start x) j ltac:(lia)) as M1. pose proof (seq_start_mono (S j) (i_end x) ltac:(lia)) as M2. rewrite seq_start_S in M2.
  set (o := seq_start j - seq_start (i_start x)). replace (seq_start (i_end x) - seq_start (i_start x)) with (o + (length (data j) + (seq_start (i_end x) - seq_start j - length (data j)))) by (unfold o; lia).
  rewrite repeat_app. rewrite skipn_app, repeat_length, Nat.sub_diag. rewrite skipn_all2 by (rewrite repeat_length; lia). cbn [app skipn].
  rewrite repeat_app, firstn_app, repeat_length, Nat.sub_diag. cbn [firstn]. rewrite app_nil_r. rewrite firstn_all2 by (rewrite repeat_length; lia). reflexivity.
Qed.
Lemma last_mid : forall (l : list interval) x, pyget (l ++ [x]) (length (l ++ [x]) - 1) = Ok x.
Proof. intros l x. rewrite app_length. cbn [length]. replace (length l + 1 - 1) with (length l) by lia. apply pyget_mid. Qed.
Lemma filter_ext_sorted : forall t start end_ (f : nat -> bool), StronglySorted lt t -> (forall j, In j t <-> start <= j < end_ /\ f j = true) -> t = filter f (seq start (end_ - start)).
Proof.
  intros t start end_ f Ht H. apply sorted_eq; [exact Ht|apply filter_sorted, seq_sorted|]. intros j. rewrite filter_In, in_seq, H. split; intros (H1 & H2); (split; [lia|exact H2]).
Qed.
Theorem insert_table : forall al start end_, table al -> start < end_ -> end_ <= N ->
  exists al', insert_alloc_interval zero N data start end_ al = Ok (al', filter (fun j => negb (coveredb al j)) (seq start (end_ - start))) /\
    table al' /\ (forall j, covered al' j <-> covered al j \/ start <= j < end_) /\ (forall j fs, holds al j fs -> holds al' j fs) /\
    (forall j, start <= j < end_ -> ~ covered al j -> holds al' j (repeat zero (length (data j)))).
Proof.
  intros al start end_ (mid & -> & Hc & HN) Hse HeN. unfold insert_alloc_interval, modify_alloc_intervals. replace (start =? end_) with false by lia. replace (start <? end_) with true by lia. cbn [assert_ bind].
  pose proof (ins_loop start end_ mid (S (length (e0 :: mid ++ [eN]))) [] e0 eN [] Hse HeN Hc eq_refl) as HL. change (length (@nil interval)) with 0 in HL. cbn [app] in HL. rewrite HL by (cbn [length]; rewrite app_length; cbn; lia). clear HL.
  pose proof (ins_spec start end_ mid (i_end e0) Hse HeN Hc) as HS. destruct (ins start end_ (i_end e0) mid) as (m, t). destruct HS as (S1 & S2 & S3 & S4 & S5 & S6). cbn [bind].
  change (pyget (e0 :: m ++ [eN]) 0) with (Ok e0). cbn [bind]. change (i_start e0 =? 0) with true. cbv iota.
  replace (e0 :: m ++ [eN]) with ((e0 :: m) ++ [eN]) by reflexivity. rewrite last_mid. cbn [bind]. replace (i_end eN =? N) with true by (symmetry; apply Nat.eqb_refl).
  exists (e0 :: m ++ [eN]). split; [|split; [|split; [|split]]].
  - f_equal. f_equal. apply filter_ext_sorted; [exact S2|]. intros j. rewrite S3. rewrite negb_true_iff, <- not_true_iff_false, coveredb_spec, covered_table. change (i_end e0) with 0. split; [intros (_ & H); exact H|intros H; split; [lia|exact H]].
  - exists m. auto.
  - intros j. rewrite !covered_table, S4, S3. change (i_end e0) with 0. split; [tauto|]. intros [H|H]; [left; exact H|]. destruct (coveredb mid j) eqn:E; [left; apply covered_cov, coveredb_spec; exact E|].
    right. split; [lia|]. split; [exact H|]. intros Hj. apply covered_cov, coveredb_spec in Hj. congruence.
  - intros j fs. rewrite !holds_table, !holds_slice. intros (x & H1 & H2). exists x. split; [apply S5; exact H1|exact H2].
  - intros j Hj Hn. rewrite holds_table, holds_slice. rewrite covered_table in Hn. assert (Hcv : cov m j) by (apply S4; right; apply S3; change (i_end e0) with 0; split; [lia|auto]).
    apply cov_In in Hcv. destruct Hcv as (x & Hx & Hxj). exists x. split; [exact Hx|]. split; [exact Hxj|]. apply slice_zero; [|exact Hxj]. destruct (S6 x Hx) as [H|H]; [|exact H]. destruct Hn. apply cov_In. exists x. auto.
Qed.
(** The loop of the removal on a table. *)
Lemma rem_run : forall start end_ mid, start < end_ -> end_ <= N -> chain 0 mid ->
  modify_loop zero data (S (length (e0 :: mid ++ [eN]))) false start end_ 0 (e0 :: mid ++ [eN]) [] =
    let '(m, t, b) := rem start end_ mid in Ok ((if start =? 0 then [] else [e0]) ++ m ++ (if b || (end_ <? N) then [eN] else []), t).
Proof.
  intros start end_ mid Hse HeN Hc.
  cut (forall fuel, length mid + 2 <= fuel -> modify_loop zero data (S fuel) false start end_ 0 (e0 :: mid ++ [eN]) [] =
    let '(m, t, b) := rem start end_ mid in Ok ((if start =? 0 then [] else [e0]) ++ m ++ (if b || (end_ <? N) then [eN] else []), t)); [intros H; apply H; cbn [length]; rewrite app_length; cbn; lia|]. intros fuel Hl.
  cbn [modify_loop]. cbn [length]. replace (0 <? S (length (mid ++ [eN])) - 0) with true by (symmetry; apply Nat.ltb_lt; lia).
  change (pyget (e0 :: mid ++ [eN]) 0) with (Ok e0). cbn [bind]. change (i_start e0) with 0. change (i_end e0) with 0. cbn [assert_ bind Nat.leb].
  replace (0 <? end_) with true by lia. replace (end_ <=? 0) with false by lia. replace (start <? 0) with false by lia. cbn [andb negb orb].
  destruct (Nat.eqb_spec start 0) as [E|E].
  - replace (0 <? start) with false by lia. cbn [andb orb modify]. destruct (remove_mid [] e0 (mid ++ [eN]) 0 0) as (d & H & Hd). cbn [length app] in H, Hd. rewrite H. cbn [bind]. rewrite Hd. change (pieces e0 0 0) with (@nil interval). cbn [app length].
    pose proof (rem_loop start end_ mid fuel [] eN (range 0 0) Hse HeN (ex_intro _ 0 Hc) eq_refl eq_refl Hl) as HL. cbn [length app] in HL. rewrite HL. destruct (rem start end_ mid) as ((m, t), b). reflexivity.
  - replace (0 <? start) with true by lia. cbn [orb andb]. 
    pose proof (rem_loop start end_ mid fuel [e0] eN [] Hse HeN (ex_intro _ 0 Hc) eq_refl eq_refl Hl) as HL. cbn [length app] in HL. rewrite HL. destruct (rem start end_ mid) as ((m, t), b). reflexivity.
Qed.
Lemma chain_app_r : forall a b lo, chain lo (a ++ b) -> exists lo', lo <= lo' /\ chain lo' b.
Proof.
  induction a as [|x a IH]; intros b lo H; [exists lo; split; [lia|exact H]|]. cbn [app AllocSpec.chain] in H. destruct H as (H1 & _ & H). destruct (IH _ _ H) as (lo' & H2 & H3). exists lo'. split; [lia|exact H3].
Qed.
Theorem remove_table : forall al start end_, table al -> start < end_ -> end_ <= N -> 0 < start \/ end_ < N \/ covered al (N - 1) ->
  exists m, (let '(m', _, _) := rem start end_ (removelast (tl al)) in m' = m) /\
    remove_alloc_interval zero N data start end_ al = Ok (e0 :: m ++ [eN], filter (coveredb al) (seq start (end_ - start))) /\
    table (e0 :: m ++ [eN]) /\ (forall j, covered (e0 :: m ++ [eN]) j <-> covered al j /\ ~ start <= j < end_) /\ (forall j fs, ~ start <= j < end_ -> holds al j fs -> holds (e0 :: m ++ [eN]) j fs).
Proof.
  intros al start end_ (mid & -> & Hc & HN) Hse HeN Hcond. unfold remove_alloc_interval, modify_alloc_intervals. replace (start =? end_) with false by lia. replace (start <? end_) with true by lia. cbn [assert_ bind].
  rewrite rem_run by assumption. cbn [tl]. rewrite removelast_last.
  pose proof (rem_spec start end_ mid 0 Hse Hc) as HS. destruct (rem start end_ mid) as ((m, t), b). destruct HS as (S1 & S2 & S3 & S4 & S5 & S6). cbn [bind].
  exists m. split; [reflexivity|]. rewrite covered_table in Hcond.
  assert (Hfin : forall al1, al1 = (if start =? 0 then [] else [e0]) ++ m ++ (if b || (end_ <? N) then [eN] else []) ->
    (let* x0 := pyget al1 0 in let al2 := if i_start x0 =? 0 then al1 else e0 :: al1 in let* xl := pyget al2 (length al2 - 1) in
     let al3 := if i_end xl =? N then al2 else al2 ++ [eN] in Ok (al3, t)) = Ok (e0 :: m ++ [eN], t)).
  { intros al1 ->.
    (* nothing at 0 is left after a removal from 0 on *)
    assert (Hm0 : start = 0 -> forall x r, m = x :: r -> (i_start x =? 0) = false).
    { intros E x r ->. apply Nat.eqb_neq. intros Ex. assert (Hcv : cov (x :: r) 0) by (left; cbn [AllocSpec.chain] in S1; lia). apply S4 in Hcv. lia. }
    assert (HmN : b = false -> end_ = N -> forall p x, m = p ++ [x] -> (i_end x =? N) = false).
    { intros Eb Ee p x ->. apply Nat.eqb_neq. intros Ex. destruct (chain_app_r _ _ _ S1) as (lo' & _ & Hx). cbn [AllocSpec.chain] in Hx. assert (Hcv : cov (p ++ [x]) (N - 1)) by (apply cov_app; right; left; lia).
      apply S4 in Hcv. lia. }
    assert (H2 : forall tail, (tail = [eN] \/ tail = [] /\ b = false /\ end_ = N) -> (start =? 0) = true -> m ++ tail <> [] ->
      pyget ((if start =? 0 then [] else [e0]) ++ m ++ tail) 0 = Ok (hd e0 (m ++ tail)) /\ (i_start (hd e0 (m ++ tail)) =? 0) = false).
    { intros tail Ht E Hne. rewrite E. cbn [app]. destruct (m ++ tail) as [|x r] eqn:Em; [congruence|]. split; [reflexivity|]. cbn [hd]. destruct m as [|y m'].
      - destruct Ht as [-> |(-> & _)]; [|discriminate Em]. injection Em as <- <-. cbn. apply Nat.eqb_neq. lia.
      - injection Em as <- <-. eapply Hm0; [apply Nat.eqb_eq; exact E|reflexivity]. }
    assert (Hb : b || (end_ <? N) = false -> b = false /\ end_ = N) by (intros Hb; apply orb_false_iff in Hb; destruct Hb as (-> & Hb); split; [reflexivity|lia]).
    destruct (b || (end_ <? N)) eqn:Eb.
    - destruct (Nat.eqb_spec start 0) as [E|E].
      + destruct (H2 [eN] (or_introl eq_refl) eq_refl ltac:(destruct m; discriminate)) as (G1 & G2). rewrite G1. cbn [bind]. rewrite G2. cbv zeta.
        cbn [app]. replace (e0 :: m ++ [eN]) with ((e0 :: m) ++ [eN]) by reflexivity. rewrite last_mid. cbn [bind]. change (i_end eN) with N. rewrite Nat.eqb_refl. reflexivity.
      + cbn [app]. change (pyget (e0 :: m ++ [eN]) 0) with (Ok e0). cbn [bind]. change (i_start e0 =? 0) with true. cbv iota zeta. replace (e0 :: m ++ [eN]) with ((e0 :: m) ++ [eN]) by reflexivity. rewrite last_mid. cbn [bind]. change (i_end eN) with N. rewrite Nat.eqb_refl. reflexivity.
    - destruct (Hb eq_refl) as (Eb' & Ee). rewrite app_nil_r.
      assert (Hlast : forall p x, e0 :: m = p ++ [x] -> (i_end x =? N) = false).
      { intros p x Hp. destruct p as [|y p]; [injection Hp as <- _; apply Nat.eqb_neq; cbn; lia|]. injection Hp as _ Hp. eapply HmN; [exact Eb'|exact Ee|exact Hp]. }
      assert (Hl : exists p x, e0 :: m = p ++ [x]). { destruct (exists_last (l := e0 :: m) ltac:(discriminate)) as (p & x & Hp). exists p, x. exact Hp. }
      destruct Hl as (p & x & Hp). assert (Hgoal : (let* xl := pyget (e0 :: m) (length (e0 :: m) - 1) in Ok (if i_end xl =? N then e0 :: m else (e0 :: m) ++ [eN], t)) = Ok (e0 :: m ++ [eN], t)).
      { rewrite Hp at 1 2. rewrite last_mid. cbn [bind]. rewrite (Hlast p x Hp). reflexivity. }
      destruct (Nat.eqb_spec start 0) as [E|E].
      + destruct Hcond as [Hcond|[Hcond|Hcond]]; [lia|lia|]. rewrite <- Ee in Hcond. apply S6 in Hcond. congruence.
      + cbn [app]. change (pyget (e0 :: m) 0) with (Ok e0). cbn [bind]. change (i_start e0 =? 0) with true. cbv iota zeta. exact Hgoal. }
  split; [|split; [|split]].
  - etransitivity; [exact (Hfin _ eq_refl)|]. f_equal. f_equal. apply filter_ext_sorted; [exact S2|]. intros j. rewrite S3, coveredb_spec, covered_table. reflexivity.
  - exists m. auto.
  - intros j. rewrite !covered_table. apply S4.
  - intros j fs Hj. rewrite !holds_table, !holds_slice. intros (x & H1 & H2 & H3). assert (Hcv : cov m j) by (apply S4; split; [apply cov_In; exists x; auto|exact Hj]).
    apply cov_In in Hcv. destruct Hcv as (y & Hy & Hyj). destruct (S5 y j Hy Hyj) as (z & Hz & Hzj & Hs). exists y. split; [exact Hy|]. split; [exact Hyj|]. rewrite Hs, (chain_unique _ _ z x j Hc Hz H1 Hzj H2). exact H3.
Qed.
Theorem remove_all_fails : forall al, table al -> ~ covered al (N - 1) -> remove_alloc_interval zero N data 0 N al = Err IndexError.
Proof.
  intros al (mid & -> & Hc & HN) Hn. rewrite covered_table in Hn. unfold remove_alloc_interval, modify_alloc_intervals. replace (0 =? N) with false by lia. replace (0 <? N) with true by lia. cbn [assert_ bind].
  rewrite rem_run by (try assumption; lia). pose proof (rem_spec 0 N mid 0 HN Hc) as HS. destruct (rem 0 N mid) as ((m, t), b). destruct HS as (S1 & _ & _ & S4 & _ & S6). cbn [bind Nat.eqb app].
  destruct b; [destruct Hn; apply S6; reflexivity|]. rewrite Nat.ltb_irrefl. cbn [orb]. rewrite app_nil_r.
  destruct m as [|x m]; [reflexivity|]. exfalso. cbn [AllocSpec.chain] in S1. assert (Hcv : cov (x :: m) (i_start x)) by (left; lia). pose proof (chain_cov (x :: m) 0 (i_start x) S1 Hcv) as Hb. apply S4 in Hcv. lia.
Qed.

(** ** The binary search *)
Definition ordered (al : list interval) : Prop := forall i k x y, i < k -> nth_error al i = Some x -> nth_error al k = Some y -> i_start x <= i_end x <= i_start y /\ i_start y <= i_end y.
Lemma chain_ordered : forall mid lo, chain lo mid -> ordered mid /\ (forall x, In x mid -> lo <= i_start x /\ i_start x < i_end x <= N).
Proof.
  induction mid as [|z mid IH]; intros lo H; [split; [intros i k x y _ Hi; destruct i; discriminate Hi|intros x []]|]. cbn [AllocSpec.chain] in H. destruct H as (H1 & _ & H). destruct (IH _ H) as (IH1 & IH2). pose proof (chain_le _ _ H) as Hle. split.
  - intros i k x y Hik Hx Hy. destruct k as [|k]; [lia|]. destruct i as [|i].
    + injection Hx as <-. cbn [nth_error] in Hy; apply nth_error_In in Hy. specialize (IH2 y Hy). lia.
    + eapply IH1; [|exact Hx|exact Hy]. lia.
  - intros x [<- |Hx]; [lia|]. specialize (IH2 x Hx). lia.
Qed.
Lemma table_ordered : forall al, table al -> ordered al.
Proof.
  intros al (mid & -> & Hc & HN). destruct (chain_ordered _ _ Hc) as (Ho & Hb). intros i k x y Hik Hx Hy.
  assert (Hend : forall n z, nth_error (mid ++ [eN]) n = Some z -> In z mid \/ z = eN) by (intros n z Hz; apply nth_error_In in Hz; apply in_app_or in Hz; destruct Hz as [Hz|[Hz|[]]]; auto).
  destruct k as [|k]; [lia|]. cbn [nth_error] in Hy. destruct i as [|i].
  - injection Hx as <-. change (i_start e0) with 0. change (i_end e0) with 0. destruct (Hend _ _ Hy) as [H| ->]; [specialize (Hb y H); lia|cbn; lia].
  - cbn [nth_error] in Hx. assert (Hlk : k < length (mid ++ [eN])) by (apply nth_error_Some; congruence). rewrite app_length in Hlk. cbn [length] in Hlk. rewrite nth_error_app1 in Hx by lia. pose proof (Hb x (nth_error_In _ _ Hx)) as Hbx.
    destruct (Nat.lt_ge_cases k (length mid)) as [Hk|Hk].
    + rewrite nth_error_app1 in Hy by lia. eapply Ho; [|exact Hx|exact Hy]. lia.
    + rewrite nth_error_app2 in Hy by lia. replace (k - length mid) with 0 in Hy by lia. injection Hy as <-. change (i_start eN) with N. change (i_end eN) with N. lia.
Qed.
Lemma pyget_nth : forall {A} (l : list A) i x, nth_error l i = Some x -> pyget l i = Ok x.
Proof. intros A l i x H. unfold pyget. rewrite H. reflexivity. Qed.
Lemma search_spec : forall fuel al j s e, ordered al -> e <= length al -> e - s < fuel ->
  (exists k, search fuel al j s e = Ok (Some k) /\ exists x, nth_error al k = Some x /\ i_start x <= j < i_end x) \/
  (search fuel al j s e = Ok None /\ forall k x, s <= k < e -> nth_error al k = Some x -> ~ i_start x <= j < i_end x).
Proof.
  induction fuel as [|fuel IH]; intros al j s e Ho He Hf; [lia|]. cbn [search]. destruct (Nat.ltb_spec s e) as [Hse|Hse]; [|right; split; [reflexivity|intros; lia]].
  pose proof (Nat.div_mod (s + e) 2 ltac:(lia)) as Hd. pose proof (Nat.mod_upper_bound (s + e) 2 ltac:(lia)) as Hm. set (i := (s + e) / 2) in *. assert (Hi : s <= i < e) by lia.
  assert (Hex : exists x, nth_error al i = Some x) by (destruct (nth_error al i) eqn:E; [eauto|apply nth_error_None in E; lia]). destruct Hex as (x & Hx). rewrite (pyget_nth _ _ _ Hx). cbn [bind].
  destruct ((i_start x <=? j) && (j <? i_end x)) eqn:E1; [left; exists i; split; [reflexivity|]; exists x; split; [exact Hx|lia]|].
  destruct ((i_start x <=? j) && (i_end x <=? j)) eqn:E2.
  - assert (Hlow : forall k y, k < i -> nth_error al k = Some y -> ~ i_start y <= j < i_end y) by (intros k y Hk Hy Hj; specialize (Ho k i y x Hk Hy Hx); lia).
    assert (Hat : forall y, nth_error al i = Some y -> ~ i_start y <= j < i_end y) by (intros y Hy; rewrite Hx in Hy; injection Hy as <-; lia).
    destruct (Nat.eqb_spec s i) as [E|E].
    + right. split; [reflexivity|]. intros k y Hk Hy. assert (k = i) by lia. subst k. apply Hat. exact Hy.
    + destruct (IH al j i e Ho He ltac:(lia)) as [H|(H1 & H2)]; [left; exact H|right]. split; [exact H1|]. intros k y Hk Hy. destruct (Nat.lt_ge_cases k i); [apply Hlow with k; assumption|apply H2 with k; [lia|exact Hy]].
  - replace (j <? i_start x) with true by lia. replace (e =? i) with false by lia.
    destruct (IH al j s i Ho ltac:(lia) ltac:(lia)) as [H|(H1 & H2)]; [left; exact H|right]. split; [exact H1|]. intros k y Hk Hy. destruct (Nat.lt_trichotomy k i) as [H|[-> |H]].
    + apply H2 with k; [lia|exact Hy].
    + rewrite Hx in Hy. injection Hy as <-. lia.
    + specialize (Ho i k x y H Hx Hy). lia.
Qed.
Lemma index_spec : forall al j, table al ->
  (covered al j /\ exists k x, alloc_interval_index al j = Ok (Some k) /\ nth_error al k = Some x /\ i_start x <= j < i_end x) \/ (~ covered al j /\ alloc_interval_index al j = Ok None).
Proof.
  intros al j Ht. unfold alloc_interval_index. destruct (search_spec (S (length al)) al j 0 (length al) (table_ordered _ Ht) ltac:(lia) ltac:(lia)) as [(k & H1 & x & H2 & H3)|(H1 & H2)].
  - left. split; [exists x; split; [eapply nth_error_In; exact H2|exact H3]|]. exists k, x. auto.
  - right. split; [|exact H1]. intros (x & Hx & Hj). apply In_nth_error in Hx. destruct Hx as (k & Hk). apply (H2 k x); [|exact Hk|exact Hj]. split; [lia|]. apply nth_error_Some. congruence.
Qed.
(** The interval of a sequence, and what is around it. *)
Lemma table_at : forall al k x j, table al -> nth_error al k = Some x -> i_start x <= j < i_end x ->
  exists p q, al = e0 :: p ++ x :: q ++ [eN] /\ k = S (length p) /\ chain 0 (p ++ x :: q).
Proof.
  intros al k x j (mid & -> & Hc & HN) Hk Hj. destruct k as [|k]; [injection Hk as <-; cbn in Hj; lia|]. cbn [nth_error] in Hk.
  assert (Hl : k < length mid). { destruct (Nat.lt_ge_cases k (length mid)) as [H|H]; [exact H|]. rewrite nth_error_app2 in Hk by lia. destruct (k - length mid) as [|n]; [injection Hk as <-; change (i_start eN) with N in Hj; change (i_end eN) with N in Hj; lia|destruct n; discriminate Hk]. }
  rewrite nth_error_app1 in Hk by lia. apply nth_error_split in Hk. destruct Hk as (p & q & -> & <-). exists p, q. rewrite <- app_assoc. auto.
Qed.
Lemma chain_app : forall p q lo, chain lo (p ++ q) <-> exists hi, (forall r, chain hi r -> chain lo (p ++ r)) /\ chain hi q /\ lo <= hi.
Proof.
  induction p as [|x p IH]; intros q lo; cbn [app AllocSpec.chain].
  - split; [intros H; exists lo; auto|]. intros (hi & H1 & H2 & _). apply H1. exact H2.
  - rewrite IH. split.
    + intros (H1 & H2 & hi & H3 & H4 & H5). exists hi. split; [intros r Hr; split; [exact H1|]; split; [exact H2|apply H3; exact Hr]|]. split; [exact H4|lia].
    + intros (hi & H1 & H2 & _). destruct (H1 q H2) as (G1 & G2 & G3). split; [exact G1|]. split; [exact G2|]. apply IH. exact G3.
Qed.
Lemma chain_mid : forall p x y q, chain 0 (p ++ x :: q) -> i_start y = i_start x -> i_end y = i_end x -> length (i_data y) = length (i_data x) -> chain 0 (p ++ y :: q).
Proof.
  intros p x y q H E1 E2 E3. apply chain_app in H. destruct H as (hi & H1 & H2 & _). apply H1. cbn [AllocSpec.chain] in *. rewrite E1, E2, E3. exact H2.
Qed.
Lemma chain_len : forall p x q, chain 0 (p ++ x :: q) -> length (i_data x) = seq_start (i_end x) - seq_start (i_start x).
Proof. intros p x q H. apply chain_app in H. destruct H as (hi & _ & H & _). cbn [AllocSpec.chain] in H. tauto. Qed.
Lemma offset_bound : forall (x : interval) j, i_start x <= j < i_end x -> length (i_data x) = seq_start (i_end x) - seq_start (i_start x) -> seq_start (i_start x) <= seq_start j /\ seq_start j - seq_start (i_start x) + length (data j) <= length (i_data x).
Proof.
  intros x j Hj Hl. pose proof (seq_start_mono (i_start x) j ltac:(lia)) as M1. pose proof (seq_start_mono (S j) (i_end x) ltac:(lia)) as M2. rewrite seq_start_S in M2. lia.
Qed.
Lemma get_table : forall imap al i fs, table al -> holds al (imap i) fs -> get_input_data data imap al i = Ok fs.
Proof.
  intros imap al i fs Ht Hh. unfold get_input_data. apply holds_slice in Hh. destruct Hh as (y & Hy & Hyj & Hs).
  destruct (index_spec al (imap i) Ht) as [(_ & k & x & Hk & Hx & Hj)|(Hn & _)]; [|destruct Hn; exists y; auto]. rewrite Hk. cbn [bind]. rewrite (pyget_nth _ _ _ Hx). cbn [bind].
  destruct (table_at _ _ _ _ Ht Hx Hj) as (p & q & -> & _ & Hc). pose proof (offset_bound x (imap i) Hj (chain_len _ _ _ Hc)) as (B1 & B2).
  replace (seq_start (i_start x) <=? seq_start (imap i)) with true by (symmetry; apply Nat.leb_le; exact B1). cbn [assert_ bind].
  replace (seq_start (imap i) - seq_start (i_start x) + length (data (imap i)) <=? length (i_data x)) with true by (symmetry; apply Nat.leb_le; exact B2). cbn [assert_ bind]. f_equal.
  assert (E : y = x). { assert (Hy' : In y (p ++ x :: q)). { destruct Hy as [<- |Hy]; [change (i_start e0) with 0 in Hyj; change (i_end e0) with 0 in Hyj; lia|]. change (In y (p ++ (x :: q) ++ [eN])) in Hy. rewrite app_assoc in Hy. apply in_app_or in Hy. destruct Hy as [Hy|[<- |[]]]; [exact Hy|]. change (i_start eN) with N in Hyj. change (i_end eN) with N in Hyj. lia. }
    eapply (chain_unique (p ++ x :: q) 0 y x (imap i) Hc Hy'); [apply in_or_app; right; left; reflexivity|exact Hyj|exact Hj]. }
  subst y. exact Hs.
Qed.
Lemma get_missing : forall imap al i, table al -> ~ covered al (imap i) -> get_input_data data imap al i = Err AssertionError.
Proof. intros imap al i Ht Hn. unfold get_input_data. destruct (index_spec al (imap i) Ht) as [(H & _)|(_ & H)]; [contradiction|]. rewrite H. reflexivity. Qed.
Lemma slice_set_same : forall (x : interval) j, i_start x <= j < i_end x -> length (i_data x) = seq_start (i_end x) - seq_start (i_start x) ->
  let off := seq_start j - seq_start (i_start x) in
  slice (i_start x, i_end x, firstn off (i_data x) ++ data j ++ skipn (off + length (data j)) (i_data x)) j = data j.
Proof.
  intros x j Hj Hl off. change (firstn (length (data j)) (skipn off (firstn off (i_data x) ++ data j ++ skipn (off + length (data j)) (i_data x))) = data j). destruct (offset_bound x j Hj Hl) as (B1 & B2). fold off in B2.
  rewrite skipn_app. rewrite firstn_length, Nat.min_l by lia. rewrite Nat.sub_diag. rewrite skipn_all2 by (rewrite firstn_length; lia). cbn [app skipn]. rewrite firstn_app, Nat.sub_diag. cbn [firstn]. rewrite app_nil_r. apply firstn_all.
Qed.
Lemma slice_set_other : forall (x : interval) j j', i_start x <= j < i_end x -> i_start x <= j' < i_end x -> j <> j' -> length (i_data x) = seq_start (i_end x) - seq_start (i_start x) ->
  let off := seq_start j - seq_start (i_start x) in
  slice (i_start x, i_end x, firstn off (i_data x) ++ data j ++ skipn (off + length (data j)) (i_data x)) j' = slice x j'.
Proof.
  intros x j j' Hj Hj' Hne Hl off. change (firstn (length (data j')) (skipn (seq_start j' - seq_start (i_start x)) (firstn off (i_data x) ++ data j ++ skipn (off + length (data j)) (i_data x))) = firstn (length (data j')) (skipn (seq_start j' - seq_start (i_start x)) (i_data x))). destruct (offset_bound x j Hj Hl) as (B1 & B2). fold off in B2. destruct (offset_bound x j' Hj' Hl) as (B3 & B4).
  set (off' := seq_start j' - seq_start (i_start x)) in *. destruct (Nat.lt_ge_cases j' j) as [H|H].
  - pose proof (seq_start_mono (S j') j ltac:(lia)) as M. rewrite seq_start_S in M. rewrite skipn_app, firstn_app. rewrite skipn_length, firstn_length. rewrite (Nat.min_l off) by lia.
    replace (length (data j') - (off - off')) with 0 by (unfold off, off'; lia). cbn [firstn]. rewrite app_nil_r. rewrite skipn_firstn_comm, firstn_firstn. f_equal. unfold off, off'. lia.
  - pose proof (seq_start_mono (S j) j' ltac:(lia)) as M. rewrite seq_start_S in M. rewrite skipn_app. rewrite skipn_all2 by (rewrite firstn_length; unfold off, off'; lia). cbn [app]. rewrite firstn_length, Nat.min_l by lia.
    rewrite skipn_app. rewrite skipn_all2 by (unfold off, off'; lia). cbn [app]. rewrite skipn_skipn2. f_equal. f_equal. unfold off, off'. lia.
Qed.
Lemma set_table : forall al j, table al -> covered al j ->
  exists al', set_data data j al = Ok al' /\ table al' /\ (forall k, covered al' k <-> covered al k) /\ holds al' j (data j) /\ (forall k fs, k <> j -> holds al k fs -> holds al' k fs).
Proof.
  intros al j Ht Hcv. unfold set_data. destruct (index_spec al j Ht) as [(_ & k & x & Hk & Hx & Hj)|(Hn & _)]; [|contradiction]. rewrite Hk. cbn [bind]. rewrite (pyget_nth _ _ _ Hx). cbn [bind].
  assert (HN : 0 < N) by (destruct Ht as (? & _ & _ & ?); assumption).
  destruct (table_at _ _ _ _ Ht Hx Hj) as (p & q & -> & -> & Hc). pose proof (chain_len _ _ _ Hc) as Hl. pose proof (offset_bound x j Hj Hl) as (B1 & B2).
  set (off := seq_start j - seq_start (i_start x)) in *. replace (off + length (data j) <=? length (i_data x)) with true by (symmetry; apply Nat.leb_le; exact B2).
  set (y := (i_start x, i_end x, firstn off (i_data x) ++ data j ++ skipn (off + length (data j)) (i_data x)) : interval).
  exists (e0 :: p ++ y :: q ++ [eN]). split; [|].
  { f_equal. replace (e0 :: p ++ x :: q ++ [eN]) with ((e0 :: p) ++ x :: (q ++ [eN])) by reflexivity. rewrite firstn_app. cbn [length]. replace (S (length p) - S (length p)) with 0 by lia. cbn [firstn]. rewrite app_nil_r.
    rewrite firstn_all2 by (cbn; lia). replace (S (S (length p))) with (S (length (e0 :: p))) by reflexivity. rewrite skipn_app. rewrite skipn_all2 by lia. replace (S (length (e0 :: p)) - length (e0 :: p)) with 1 by lia. reflexivity. }
  assert (Ht' : table (e0 :: p ++ y :: q ++ [eN])).
  { exists (p ++ y :: q). split; [rewrite <- app_assoc; reflexivity|]. split; [|exact HN]. apply chain_mid with x; [exact Hc|reflexivity|reflexivity|]. unfold y, i_data at 1. cbn [snd]. rewrite !app_length, firstn_length, skipn_length. lia. }
  split; [exact Ht'|]. split; [|split].
  - intros k. rewrite !covered_cov. cbn [cov]. rewrite !cov_app. cbn [cov]. change (i_start y) with (i_start x). change (i_end y) with (i_end x). reflexivity.
  - apply holds_slice. exists y. split; [right; apply in_or_app; right; left; reflexivity|]. split; [exact Hj|]. apply slice_set_same; assumption.
  - intros k fs Hne Hh. apply holds_slice in Hh. destruct Hh as (z & Hz & Hzk & Hs). apply holds_slice. destruct Hz as [Hz|Hz]; [exists z; split; [left; exact Hz|auto]|]. apply in_app_or in Hz. destruct Hz as [Hz|[Hz|Hz]].
    + exists z. split; [right; apply in_or_app; left; exact Hz|auto].
    + subst z. exists y. split; [right; apply in_or_app; right; left; reflexivity|]. split; [exact Hzk|]. rewrite <- Hs. apply slice_set_other; [exact Hj|exact Hzk|congruence|exact Hl].
    + exists z. split; [right; apply in_or_app; right; right; exact Hz|auto].
Qed.
Lemma holds_covered : forall al j fs, holds al j fs -> covered al j.
Proof. intros al j fs (x & H1 & H2 & _). exists x. auto. Qed.
Lemma fill_table : forall js al pre, table al -> (forall j, In j js -> covered al j) ->
  exists al', fill data js al pre = Ok (al', pre ++ js) /\ table al' /\ (forall k, covered al' k <-> covered al k) /\ (forall j, In j js \/ holds al j (data j) -> holds al' j (data j)).
Proof.
  induction js as [|j js IH]; intros al pre Ht Hcv.
  - exists al. cbn [fill]. rewrite app_nil_r. split; [reflexivity|]. split; [exact Ht|]. split; [reflexivity|]. intros j [[]|H]. exact H.
  - cbn [fill]. destruct (set_table al j Ht (Hcv j (or_introl eq_refl))) as (al1 & E & Ht1 & Hc1 & Hh1 & Ho1). rewrite E. cbn [bind].
    destruct (IH al1 (pre ++ [j]) Ht1) as (al2 & E2 & Ht2 & Hc2 & Hh2). { intros k Hk. apply Hc1, Hcv. right. exact Hk. }
    exists al2. rewrite E2, <- app_assoc. split; [reflexivity|]. split; [exact Ht2|]. split; [intros k; rewrite Hc2; apply Hc1|].
    intros k Hk. apply Hh2. destruct (Nat.eq_dec k j) as [-> |Hne]; [right; exact Hh1|]. destruct Hk as [[Hk|Hk]|Hk]; [congruence|left; exact Hk|right; apply Ho1; assumption].
Qed.

(** ** Deleting *)
Lemma rem_shape : forall start end_ r x p lo, i_start x <= start < i_end x -> end_ = i_end x -> chain lo (p ++ x :: r) ->
  exists t b, rem start end_ (p ++ x :: r) = (p ++ pieces x start end_ ++ r, t, b).
Proof.
  intros start end_ r x p. induction p as [|y p IH]; intros lo Hx -> Hc.
  - cbn [app rem]. destruct (rem start (i_end x) r) as ((m, t), b). unfold flag0, flag1. replace ((i_start x <=? start) && (start <? i_end x)) with true by lia.
    replace ((i_start x <? i_end x) && (i_end x <=? i_end x)) with true by (rewrite Nat.leb_refl; lia). cbn [negb andb]. eexists _, _. reflexivity.
  - cbn [app AllocSpec.chain] in Hc. destruct Hc as (H1 & _ & Hc). destruct (IH _ Hx eq_refl Hc) as (t & b & E). cbn [app rem]. rewrite E.
    assert (Hy : i_end y <= i_start x) by (destruct (chain_app_r _ _ _ Hc) as (lo' & G1 & G2); cbn [AllocSpec.chain] in G2; lia).
    unfold flag0, flag1, flag2. replace (start <? i_end y) with false by lia. replace (i_end x <=? i_end y) with false by lia. rewrite !andb_false_r. cbn [negb andb].
    replace ((i_start y <? start) && (i_end y <=? start)) with true by lia. cbn [orb]. eexists _, _. reflexivity.
Qed.
Lemma list_sum_cons : forall a l, list_sum (a :: l) = a + list_sum l.
Proof. reflexivity. Qed.
Lemma list_sum_filter : forall (f : nat -> nat) (P : nat -> bool) l, list_sum (map f (filter P l)) = list_sum (map (fun j => if P j then f j else 0) l).
Proof. intros f P l. induction l as [|x l IH]; [reflexivity|]. cbn [filter map]. rewrite !list_sum_cons. destruct (P x); [cbn [map]; rewrite list_sum_cons|]; lia. Qed.
Lemma list_sum_ext : forall (f g : nat -> nat) l, (forall j, In j l -> f j = g j) -> list_sum (map f l) = list_sum (map g l).
Proof. intros f g l H. f_equal. apply map_ext_in. exact H. Qed.
Lemma seq_split : forall a b c, a <= b <= c -> seq a (c - a) = seq a (b - a) ++ seq b (c - b).
Proof. intros a b c H. replace (c - a) with ((b - a) + (c - b)) by lia. rewrite seq_app. f_equal. f_equal. lia. Qed.
Notation extra := (extra_frames N data).
Lemma extra_remove : forall c al al1 start end_, c <= start -> start <= end_ -> end_ <= N -> (forall j, covered al1 j <-> covered al j /\ ~ start <= j < end_) ->
  extra c al = extra c al1 + list_sum (map (fun j => length (data j)) (filter (coveredb al) (seq start (end_ - start)))).
Proof.
  intros c al al1 start end_ H1 H2 H3 Hcov. unfold extra_frames. rewrite list_sum_filter. rewrite (seq_split c start N) by lia. rewrite (seq_split start end_ N) by lia. rewrite !map_app, !list_sum_app.
  assert (Hb : forall j, ~ start <= j < end_ -> coveredb al1 j = coveredb al j). { intros j Hj. apply eq_true_iff_eq. rewrite !coveredb_spec, Hcov. tauto. }
  assert (Hz : forall j, start <= j < end_ -> coveredb al1 j = false). { intros j Hj. apply not_true_iff_false. rewrite coveredb_spec, Hcov. tauto. }
  rewrite (list_sum_ext (fun j => if coveredb al1 j then length (data j) else 0) (fun j => if coveredb al j then length (data j) else 0) (seq c (start - c))) by (intros j Hj; apply in_seq in Hj; rewrite Hb by lia; reflexivity).
  rewrite (list_sum_ext (fun j => if coveredb al1 j then length (data j) else 0) (fun j => if coveredb al j then length (data j) else 0) (seq end_ (N - end_))) by (intros j Hj; apply in_seq in Hj; rewrite Hb by lia; reflexivity).
  rewrite (list_sum_ext (fun j => if coveredb al1 j then length (data j) else 0) (fun j => 0) (seq start (end_ - start))) by (intros j Hj; apply in_seq in Hj; rewrite Hz by lia; reflexivity).
  replace (list_sum (map (fun _ : nat => 0) (seq start (end_ - start)))) with 0 by (generalize (seq start (end_ - start)); intros l; induction l; [reflexivity|exact IHl]). lia.
Qed.
Lemma mem_In : forall j l, mem j l = true <-> In j l.
Proof. intros j l. unfold mem. rewrite existsb_exists. split; [intros (x & H & E); apply Nat.eqb_eq in E; subst; exact H|intros H; exists j; split; [exact H|apply Nat.eqb_refl]]. Qed.
Lemma delete_loop_spec : forall q p fuel st deleted, let c := k_at_start st in
  k_alloc st = e0 :: p ++ q ++ [eN] -> chain 0 (p ++ q) -> 0 < N -> c <= N -> Forall (fun x => i_end x <= c) p -> 2 * length q + 2 <= fuel ->
  exists st', delete_loop zero N data fuel (S (length p)) deleted st = Ok (st', deleted + extra c (k_alloc st)) /\
    table (k_alloc st') /\ k_preload_end st' = k_preload_end st /\ k_free st' = k_free st /\ k_at_start st' = c /\
    (forall j, covered (k_alloc st') j <-> covered (k_alloc st) j /\ j < c) /\ (forall j fs, j < c -> holds (k_alloc st) j fs -> holds (k_alloc st') j fs) /\
    (forall j, In j (k_preload st') <-> In j (k_preload st) /\ ~ (covered (k_alloc st) j /\ c <= j)).
Proof.
  intros q. remember (length q) as n eqn:Hn. assert (Hn' : length q <= n) by lia. clear Hn. revert q Hn'. induction n as [|n IH]; intros q Hn p fuel st deleted c Hal Hc HN HcN Hp Hf.
  - destruct q as [|? ?]; [|cbn in Hn; lia]. cbn [app] in Hal. rewrite app_nil_r in Hc. destruct fuel as [|[|fuel]]; [lia|lia|]. cbn [delete_loop]. rewrite Hal.
    replace (S (length p) <? length (e0 :: p ++ [eN])) with true by (symmetry; apply Nat.ltb_lt; cbn [length]; rewrite app_length; cbn; lia).
    replace (e0 :: p ++ [eN]) with ((e0 :: p) ++ eN :: []) by reflexivity. replace (pyget ((e0 :: p) ++ [eN]) (S (length p))) with (Ok eN) by (symmetry; exact (pyget_mid _ (e0 :: p) eN [])). cbn [bind]. change (i_end eN) with N. change (i_start eN) with N. rewrite Nat.ltb_irrefl, andb_false_r.
    replace (S (S (length p)) <? length ((e0 :: p) ++ [eN])) with false by (symmetry; apply Nat.ltb_ge; rewrite app_length; cbn; lia).
    assert (Hlow : forall j, covered (k_alloc st) j -> j < c). { intros j Hj. rewrite Hal, covered_table in Hj. apply cov_In in Hj. destruct Hj as (x & Hx & Hj). rewrite Forall_forall in Hp. specialize (Hp x Hx). cbn beta in Hp. lia. }
    replace ((e0 :: p) ++ [eN]) with (k_alloc st) by (rewrite Hal; reflexivity). exists st. split; [|split; [exists p; rewrite Hal; auto|]].
    + f_equal. f_equal. unfold extra_frames. rewrite (list_sum_ext _ (fun j => 0)); [generalize (seq c (N - c)); intros l; induction l as [|? ? IHl]; [cbn; lia|exact IHl]|]. intros j Hj. apply in_seq in Hj. destruct (coveredb _ j) eqn:E; [|reflexivity]. apply coveredb_spec in E. apply Hlow in E. lia.
    + split; [reflexivity|]. split; [reflexivity|]. split; [reflexivity|]. split; [intros j; specialize (Hlow j); tauto|]. split; [auto|]. intros j. specialize (Hlow j). split; [intros H; split; [exact H|intros (G1 & G2); apply Hlow in G1; lia]|tauto].
  - destruct q as [|x r]; [apply (IH [] ltac:(cbn; lia)); try assumption; cbn in *; lia|]. cbn [length] in Hn, Hf. destruct fuel as [|fuel]; [lia|].
    assert (Hx : i_start x < i_end x <= N) by (destruct (chain_ordered _ _ Hc) as (_ & Hb); specialize (Hb x ltac:(apply in_or_app; right; left; reflexivity)); lia).
    assert (Ht : table (k_alloc st)) by (exists (p ++ x :: r); rewrite Hal, <- app_assoc; auto).
    cbn [delete_loop]. replace (S (length p) <? length (k_alloc st)) with true by (symmetry; apply Nat.ltb_lt; rewrite Hal; cbn [length]; rewrite app_length; cbn; lia).
    assert (Hget : pyget (k_alloc st) (S (length p)) = Ok x) by (rewrite Hal; apply (@pyget_mid _ (e0 :: p) x (r ++ [eN]))). rewrite Hget. cbn [bind]. fold c.
    destruct (Nat.ltb_spec c (i_end x)) as [Hcx|Hcx]; cbn [andb].
    2:{ replace (S (S (length p))) with (S (length (p ++ [x]))) by (rewrite app_length; cbn; lia). apply (IH r); [lia|rewrite Hal, <- app_assoc; reflexivity|rewrite <- app_assoc; exact Hc|exact HN|exact HcN| |lia].
      apply Forall_app. split; [exact Hp|]. constructor; [exact Hcx|constructor]. }
    replace (i_start x <? i_end x) with true by lia. set (start := Nat.max (i_start x) c).
    destruct (remove_table (k_alloc st) start (i_end x) Ht ltac:(lia) ltac:(lia)) as (m & Em & E & Ht1 & Hcov1 & Hhold1).
    { destruct (Nat.eq_dec (i_end x) N) as [EN|]; [|right; left; lia]. right. right. exists x. split; [rewrite Hal; right; apply in_or_app; right; left; reflexivity|lia]. }
    rewrite E. cbn [bind]. destruct (rem_shape start (i_end x) r x p 0 ltac:(lia) eq_refl Hc) as (t & b & Er).
    rewrite Hal in Em. cbn [tl] in Em. replace (p ++ (x :: r) ++ [eN]) with ((p ++ x :: r) ++ [eN]) in Em by (rewrite <- app_assoc; reflexivity). rewrite removelast_last, Er in Em. subst m.
    set (removed := filter (coveredb (k_alloc st)) (seq start (i_end x - start))) in *.
    assert (Hrem : forall j, In j removed <-> covered (k_alloc st) j /\ start <= j < i_end x) by (intros j; unfold removed; rewrite filter_In, in_seq, coveredb_spec; split; intros (G1 & G2); [split; [exact G2|lia]|split; [lia|exact G1]]).
    set (pre := filter (fun j => negb (mem j removed)) (k_preload st)).
    assert (Hpre : forall j, In j pre <-> In j (k_preload st) /\ ~ (covered (k_alloc st) j /\ start <= j < i_end x)) by (intros j; unfold pre; rewrite filter_In, negb_true_iff, <- not_true_iff_false, mem_In, Hrem; reflexivity).
    pose proof (extra_remove c (k_alloc st) _ start (i_end x) ltac:(lia) ltac:(lia) ltac:(lia) Hcov1) as Hex. fold removed in Hex.
    remember (e0 :: (p ++ pieces x start (i_end x) ++ r) ++ [eN]) as al1 eqn:Eal1. set (st1 := set_alloc st al1 pre).
    set (dl := list_sum (map (fun j => length (data j)) removed)) in *.
    assert (HI : exists st', delete_loop zero N data fuel (S (length p)) (deleted + dl) st1 = Ok (st', (deleted + dl) + extra c al1) /\
      table (k_alloc st') /\ k_preload_end st' = k_preload_end st1 /\ k_free st' = k_free st1 /\ k_at_start st' = c /\
      (forall j, covered (k_alloc st') j <-> covered al1 j /\ j < c) /\ (forall j fs, j < c -> holds al1 j fs -> holds (k_alloc st') j fs) /\
      (forall j, In j (k_preload st') <-> In j pre /\ ~ (covered al1 j /\ c <= j))).
    { assert (Hc1 : chain 0 (p ++ pieces x start (i_end x) ++ r)) by (destruct Ht1 as (mid & Emid & Hmid & _); rewrite Eal1 in Emid; injection Emid as Emid; apply app_inv_tail in Emid; subst mid; exact Hmid).
      unfold pieces in *. rewrite Nat.eqb_refl in *. destruct (Nat.eqb_spec start (i_start x)) as [Es|Es]; cbn [andb app] in *.
      - refine (IH r ltac:(lia) p fuel st1 (deleted + dl) _ Hc1 HN HcN Hp ltac:(lia)). unfold st1. cbn [k_alloc set_alloc]. rewrite Eal1, <- app_assoc. reflexivity.
      - assert (Esc : start = c) by lia. set (y := (i_start x, start, firstn (seq_start start - seq_start (i_start x)) (i_data x)) : interval) in *. destruct fuel as [|fuel]; [lia|].
        assert (Hal1 : k_alloc st1 = e0 :: p ++ y :: r ++ [eN]) by (unfold st1; cbn [k_alloc set_alloc]; rewrite Eal1, <- app_assoc; reflexivity).
        assert (Hget1 : pyget (k_alloc st1) (S (length p)) = Ok y) by (rewrite Hal1; exact (pyget_mid _ (e0 :: p) y (r ++ [eN]))).
        assert (Hlt1 : (S (length p) <? length (k_alloc st1)) = true) by (rewrite Hal1; apply Nat.ltb_lt; cbn [length]; rewrite app_length; cbn; lia).
        change (delete_loop zero N data (S fuel) (S (length p)) (deleted + dl) st1) with (if S (length p) <? length (k_alloc st1) then
          let* ai := pyget (k_alloc st1) (S (length p)) in if (k_at_start st1 <? i_end ai) && (i_start ai <? i_end ai) then
            let* (al, removed') := remove_alloc_interval zero N data (Nat.max (i_start ai) (k_at_start st1)) (i_end ai) (k_alloc st1) in
            delete_loop zero N data fuel (S (length p)) (deleted + dl + list_sum (map (fun j => length (data j)) removed')) (set_alloc st1 al (filter (fun j => negb (mem j removed')) (k_preload st1)))
          else delete_loop zero N data fuel (S (S (length p))) (deleted + dl) st1 else Ok (st1, deleted + dl)).
        rewrite Hlt1, Hget1. cbn [bind]. change (i_end y) with start. change (k_at_start st1) with c. rewrite Esc, Nat.ltb_irrefl. cbn [andb].
        replace (S (S (length p))) with (S (length (p ++ [y]))) by (rewrite app_length; cbn; lia).
        refine (IH r ltac:(lia) (p ++ [y]) fuel st1 (deleted + dl) _ _ HN HcN _ ltac:(lia)); [rewrite Hal1, <- app_assoc; reflexivity|rewrite <- app_assoc; exact Hc1|].
        apply Forall_app. split; [exact Hp|]. constructor; [change (start <= c); lia|constructor]. }
    destruct HI as (st' & R1 & R2 & R3 & R4 & R5 & R6 & R7 & R8). exists st'. split; [fold st1; rewrite R1; f_equal; f_equal; lia|]. split; [exact R2|]. split; [exact R3|]. split; [exact R4|]. split; [exact R5|]. split; [|split].
    + intros j. rewrite R6, Hcov1. split; [tauto|]. intros (G1 & G2). split; [split; [exact G1|lia]|exact G2].
    + intros j fs Hj Hh. apply R7; [exact Hj|]. apply Hhold1; [lia|exact Hh].
    + intros j. rewrite R8, Hpre, Hcov1. split.
      * intros ((G1 & G2) & G3). split; [exact G1|]. intros (G4 & G5). apply G3. split; [|exact G5]. split; [exact G4|]. intros G6. apply G2. auto.
      * intros (G1 & G2). split; [split; [exact G1|]|]; intros (G3 & G4); apply G2; [split; [exact G3|lia]|tauto].
Qed.
Notation cache_ok := (cache_ok zero N data).
Theorem delete_ok : forall st, cache_ok st -> exists st', delete zero N data st = Ok (st', extra (k_at_start st) (k_alloc st)) /\ cache_ok st' /\
  k_preload_end st' = k_preload_end st /\ k_free st' = k_free st /\ k_at_start st' = k_at_start st /\ (forall j, covered (k_alloc st') j <-> j < k_at_start st).
Proof.
  intros st (Ht & Hpre & Hdat & HcN & Hstart). destruct Ht as (mid & Hal & Hc & HN). 
  assert (Hlen : 2 * length (k_alloc st) + 1 = S (2 * length mid + 4)) by (rewrite Hal; cbn [length]; rewrite app_length; cbn; lia). unfold delete. rewrite Hlen.
  assert (Hget : pyget (k_alloc st) 0 = Ok e0) by (rewrite Hal; reflexivity). cbn [delete_loop].
  replace (0 <? length (k_alloc st)) with true by (symmetry; apply Nat.ltb_lt; rewrite Hal; cbn; lia). rewrite Hget. cbn [bind]. change (i_start e0 <? i_end e0) with false. rewrite andb_false_r.
  destruct (delete_loop_spec mid [] (2 * length mid + 4) st 0 Hal Hc HN HcN (Forall_nil _) ltac:(lia)) as (st' & R1 & R2 & R3 & R4 & R5 & R6 & R7 & R8). cbn [length] in R1.
  assert (Hcov : forall j, covered (k_alloc st') j <-> j < k_at_start st) by (intros j; rewrite R6; split; [tauto|intros H; split; [apply Hstart; exact H|exact H]]).
  exists st'. split; [exact R1|]. split; [|auto]. split; [exact R2|]. split; [|split; [|split]].
  - intros j. rewrite R8, Hpre, Hcov. split; [intros (G1 & G2); apply Nat.nle_gt; intros H; apply G2; auto|]. intros H. split; [apply Hstart; exact H|intros (_ & G); lia].
  - intros j Hj. apply Hcov in Hj. apply R7; [exact Hj|]. apply Hdat, Hstart, Hj.
  - rewrite R5. exact HcN.
  - intros j. rewrite R5. apply Hcov.
Qed.
(** ** Loading *)
Lemma is_cached_spec : forall (st : @cache F) s e, is_cached st s e = true <-> (s = e \/ forall j, s <= j < e -> In j (k_preload st)).
Proof.
  intros st s e. unfold is_cached. rewrite orb_true_iff, Nat.eqb_eq, forallb_forall. unfold range. split; (intros [H|H]; [left; exact H|right]).
  - intros j Hj. apply mem_In, H, in_seq. lia.
  - intros j Hj. apply mem_In, H. apply in_seq in Hj. lia.
Qed.
Lemma filter_length_le : forall {A} (f : A -> bool) l, length (filter f l) <= length l.
Proof. intros A f l. induction l as [|x l IH]; [reflexivity|]. cbn [filter]. destruct (f x); cbn [length]; lia. Qed.
Lemma load_now_ok : forall st s e, cache_ok st -> s < e -> e <= N ->
  exists st', load_now zero N data s e st = Ok st' /\ cache_ok st' /\ (forall j, covered (k_alloc st') j <-> covered (k_alloc st) j \/ s <= j < e) /\
    k_preload_end st' = k_preload_end st /\ k_free st' = k_free st /\ k_at_start st' = k_at_start st.
Proof.
  intros st s e (Ht & Hpre & Hdat & HcN & Hstart) Hse HeN. unfold load_now. replace (s <? N) with true by lia. replace (e <=? N) with true by lia. cbn [assert_ bind].
  destruct (insert_table (k_alloc st) s e Ht Hse HeN) as (al & E & Ht1 & Hcov1 & Hhold1 & _). rewrite E. cbn [bind]. clear E. set (sel := filter (fun j => negb (coveredb (k_alloc st) j)) (seq s (e - s))).
  assert (Hsel : forall j, In j sel <-> s <= j < e /\ ~ covered (k_alloc st) j) by (intros j; unfold sel; rewrite filter_In, in_seq, negb_true_iff, <- not_true_iff_false, coveredb_spec; split; intros (G1 & G2); (split; [lia|exact G2])).
  replace (length sel <=? e - s) with true by (symmetry; apply Nat.leb_le; unfold sel; etransitivity; [apply filter_length_le|]; rewrite seq_length; lia). cbn [assert_ bind].
  destruct (fill_table sel al (k_preload st ++ others s e sel) Ht1) as (al' & E & Ht2 & Hcov2 & Hhold2); [intros j Hj; apply Hcov1; right; apply Hsel; exact Hj|]. rewrite E. cbn [bind].
  assert (Hcov : forall j, covered al' j <-> covered (k_alloc st) j \/ s <= j < e) by (intros j; rewrite Hcov2; apply Hcov1).
  exists (set_alloc st al' ((k_preload st ++ others s e sel) ++ sel)). split; [reflexivity|]. split; [|auto]. split; [exact Ht2|]. cbn [k_alloc k_preload set_alloc k_at_start]. split; [|split; [|split]].
  - intros j. rewrite !in_app_iff, Hpre, Hcov, Hsel. unfold others, range. rewrite filter_In, in_seq, negb_true_iff, <- not_true_iff_false, mem_In, Hsel. destruct (coveredb (k_alloc st) j) eqn:Ec.
    + apply coveredb_spec in Ec. tauto.
    + apply not_true_iff_false in Ec. rewrite coveredb_spec in Ec. split; [intros [[G|(G1 & G2)]|G]; [tauto|right; lia|tauto]|]. intros [G|G]; [tauto|right; tauto].
  - intros j Hj. apply Hhold2. destruct (coveredb (k_alloc st) j) eqn:Ec.
    + right. apply Hhold1, Hdat, coveredb_spec, Ec.
    + left. apply not_true_iff_false in Ec. rewrite coveredb_spec in Ec. apply Hsel. apply Hcov in Hj. tauto.
  - exact HcN.
  - intros j Hj. apply Hcov. left. apply Hstart. exact Hj.
Qed.
Lemma preload_ok : forall st s e, cache_ok st -> s <= e -> e <= N ->
  exists st', preload_seqs zero N data s e st = Ok st' /\ cache_ok st' /\ (forall j, covered (k_alloc st') j <-> covered (k_alloc st) j \/ s <= j < e) /\ k_free st' = k_free st /\ k_at_start st' = k_at_start st.
Proof.
  intros st s e Hok Hse HeN. unfold preload_seqs. destruct (is_cached st s e) eqn:Ec.
  - cbn [bind]. eexists. split; [reflexivity|]. cbn [k_alloc k_free k_at_start]. split; [exact Hok|]. split; [|auto]. intros j. split; [auto|]. intros [H|H]; [exact H|]. apply is_cached_spec in Ec. destruct Ec as [Ec|Ec]; [lia|]. destruct Hok as (_ & Hp & _). apply Hp, Ec, H.
  - assert (Hlt : s < e). { destruct (Nat.eq_dec s e) as [-> |]; [|lia]. assert (is_cached st e e = true) by (apply is_cached_spec; auto). congruence. }
    destruct (load_now_ok st s e Hok Hlt HeN) as (st' & E & Hok' & Hcov & R1 & R2 & R3). rewrite E. cbn [bind]. eexists. split; [reflexivity|]. cbn [k_alloc k_free k_at_start]. split; [exact Hok'|]. auto.
Qed.
Notation frames := (frames data).
Lemma frames_S : forall imap a b, a < b -> frames imap a b = length (data (imap a)) + frames imap (S a) b.
Proof. intros imap a b H. unfold AllocSpec.frames. replace (b - a) with (S (b - S a)) by lia. reflexivity. Qed.
Lemma extend_spec : forall imap fuel e free e' free', e <= N -> N <= e + fuel -> extend N data imap fuel e free = (e', free') ->
  e <= e' <= N /\ frames imap e e' + free' = free /\ (e' = N \/ free' < length (data (imap e'))).
Proof.
  intros imap. induction fuel as [|fuel IH]; intros e free e' free' HeN Hf H; cbn [extend] in H.
  - injection H as <- <-. split; [lia|]. split; [unfold AllocSpec.frames; rewrite Nat.sub_diag; reflexivity|left; lia].
  - destruct (Nat.ltb_spec e N) as [Hlt|Hge]; [|injection H as <- <-; split; [lia|]; split; [unfold AllocSpec.frames; rewrite Nat.sub_diag; reflexivity|left; lia]].
    destruct (Nat.ltb_spec free (length (data (imap e)))) as [Hfr|Hfr]; [injection H as <- <-; split; [lia|]; split; [unfold AllocSpec.frames; rewrite Nat.sub_diag; reflexivity|right; exact Hfr]|].
    apply IH in H; [|lia|lia]. destruct H as (H1 & H2 & H3). split; [lia|]. split; [rewrite frames_S by lia; lia|exact H3].
Qed.
Theorem load_ok : forall imap st s e, cache_ok st -> s <= e -> e <= N ->
  exists st', load_seqs zero N data imap s e st = Ok st' /\ cache_ok st' /\ (forall j, s <= j < e -> covered (k_alloc st') j) /\ k_at_start st' = k_at_start st /\
    (st' = st \/ exists e', e <= e' <= N /\ (forall j, covered (k_alloc st') j <-> j < k_at_start st \/ s <= j < e') /\
       frames imap e e' + k_free st' = k_free st + extra (k_at_start st) (k_alloc st) /\ (e' = N \/ k_free st' < length (data (imap e')))).
Proof.
  intros imap st s e Hok Hse HeN. unfold load_seqs. replace (s <=? e) with true by lia. cbn [assert_ bind]. destruct (is_cached st s e) eqn:Ec.
  - exists st. split; [reflexivity|]. split; [exact Hok|]. split; [|auto]. intros j Hj. apply is_cached_spec in Ec. destruct Ec as [Ec|Ec]; [lia|]. destruct Hok as (_ & Hp & _). apply Hp, Ec, Hj.
  - unfold prepare_load. destruct (delete_ok st Hok) as (st1 & E & Hok1 & R1 & R2 & R3 & Hcov1). rewrite E. cbn [bind]. rewrite R2.
    destruct (extend N data imap N e (k_free st + extra (k_at_start st) (k_alloc st))) as (e', free') eqn:Ee. apply extend_spec in Ee; [|lia|lia]. destruct Ee as (B1 & B2 & B3). cbn [bind].
    set (st2 := {| k_alloc := k_alloc st1; k_preload := k_preload st1; k_preload_end := e'; k_free := free'; k_at_start := k_at_start st1 |}).
    destruct (preload_ok st2 s e' Hok1 ltac:(lia) ltac:(lia)) as (st' & E2 & Hok2 & Hcov2 & R4 & R5). exists st'. split; [exact E2|]. split; [exact Hok2|].
    assert (Hcov : forall j, covered (k_alloc st') j <-> j < k_at_start st \/ s <= j < e') by (intros j; rewrite Hcov2; cbn [k_alloc st2]; rewrite Hcov1; reflexivity).
    split; [intros j Hj; apply Hcov; right; lia|]. split; [rewrite R5; exact R3|]. right. exists e'. split; [exact B1|]. split; [exact Hcov|]. rewrite R4. cbn [k_free st2]. auto.
Qed.
Lemma start_cache_spec : forall imap limit fuel i used, i <= N -> i <= start_cache N data imap fuel i limit used <= N.
Proof.
  intros imap limit. induction fuel as [|fuel IH]; intros i used Hi; cbn [start_cache]; [lia|]. destruct ((i <? N) && _) eqn:E; [|lia]. apply andb_true_iff in E. destruct E as (E & _). specialize (IH (S i) (used + length (data (imap i))) ltac:(lia)). lia.
Qed.
Theorem init_ok : forall imap limit free, 0 < N ->
  exists st, init_cache zero N data imap limit free = Ok st /\ cache_ok st /\ k_at_start st = start_cache N data imap N 0 limit 0 /\ (forall j, covered (k_alloc st) j <-> j < k_at_start st) /\ k_free st = free.
Proof.
  intros imap limit free HN. unfold init_cache. pose proof (start_cache_spec imap limit N 0 0 ltac:(lia)) as Hb. set (c := start_cache N data imap N 0 limit 0) in *.
  assert (Hno : forall j, ~ covered (init_alloc zero N) j). { intros j Hj. change (init_alloc zero N) with (e0 :: [] ++ [eN]) in Hj. rewrite covered_table in Hj. exact Hj. }
  assert (Ht : table (init_alloc zero N)) by (exists []; split; [reflexivity|]; split; [cbn; lia|exact HN]).
  destruct (Nat.ltb_spec 0 c) as [Hc|Hc].
  - unfold preload_seqs. assert (Eic : is_cached (fresh zero N free c) 0 c = false). { apply not_true_iff_false. intros H. apply is_cached_spec in H. destruct H as [H|H]; [lia|]. apply (H 0). lia. }
    rewrite Eic. assert (Hpart : exists st', load_now zero N data 0 c (fresh zero N free c) = Ok st' /\ cache_ok st' /\ (forall j, covered (k_alloc st') j <-> j < c) /\ k_free st' = free /\ k_at_start st' = c).
    { unfold load_now. replace (0 <? N) with true by lia. replace (c <=? N) with true by lia. cbn [assert_ bind].
      destruct (insert_table (init_alloc zero N) 0 c Ht Hc ltac:(lia)) as (al & E & Ht1 & Hcov1 & _ & _). cbn [fresh k_alloc k_preload]. rewrite E. cbn [bind]. clear E. set (sel := filter (fun j => negb (coveredb (init_alloc zero N) j)) (seq 0 (c - 0))).
      assert (Esel : sel = seq 0 c). { unfold sel. rewrite Nat.sub_0_r. apply filter_all. intros j _. apply negb_true_iff, not_true_iff_false. rewrite coveredb_spec. apply Hno. }
      rewrite Esel, seq_length, Nat.sub_0_r, Nat.leb_refl. cbn [assert_ bind].
      destruct (fill_table (seq 0 c) al ([] ++ others 0 c (seq 0 c)) Ht1) as (al' & E & Ht2 & Hcov2 & Hhold2); [intros j Hj; apply Hcov1; right; apply in_seq in Hj; lia|]. rewrite E. cbn [bind].
      assert (Hcov : forall j, covered al' j <-> j < c) by (intros j; rewrite Hcov2, Hcov1; split; [intros [H|H]; [destruct (Hno j H)|lia]|intros H; right; lia]).
      eexists. split; [reflexivity|]. cbn [k_alloc k_free k_at_start set_alloc fresh]. split; [|auto]. split; [exact Ht2|]. cbn [k_alloc k_preload k_at_start set_alloc fresh]. split; [|split; [|split]].
      - intros j. rewrite Hcov. cbn [app]. rewrite in_app_iff, in_seq. unfold others, range. rewrite filter_In, in_seq. split; [intros [(H & _)|H]; lia|intros H; right; lia].
      - intros j Hj. apply Hhold2. left. apply in_seq. apply Hcov in Hj. lia.
      - lia.
      - intros j Hj. apply Hcov. exact Hj. }
    destruct Hpart as (st' & E & Hok & Hcov & R1 & R2). rewrite E. cbn [bind]. eexists. split; [reflexivity|]. cbn [k_alloc k_free k_at_start]. split; [exact Hok|]. split; [exact R2|]. split; [intros j; rewrite R2; apply Hcov|exact R1].
  - exists (fresh zero N free c). split; [reflexivity|]. cbn [k_alloc k_free k_at_start fresh]. split; [|split; [reflexivity|]; split; [|reflexivity]; intros j; split; [intros H; destruct (Hno j H)|lia]].
    split; [exact Ht|]. cbn [k_alloc k_preload k_at_start fresh]. split; [intros j; split; [intros []|intros H; destruct (Hno j H)]|]. split; [intros j H; destruct (Hno j H)|]. split; [lia|intros j Hj; lia].
Qed.

Lemma frames_split : forall imap a b c, a <= b <= c -> frames imap a c = frames imap a b + frames imap b c.
Proof. intros imap a b c H. unfold AllocSpec.frames. rewrite (seq_split a b c H), map_app, list_sum_app. reflexivity. Qed.
Lemma start_cache_max : forall imap limit fuel i used, i <= N -> N <= i + fuel -> used <= limit ->
  let c := start_cache N data imap fuel i limit used in i <= c <= N /\ used + frames imap i c <= limit /\ (c = N \/ limit < used + frames imap i (S c)).
Proof.
  intros imap limit. induction fuel as [|fuel IH]; intros i used Hi Hf Hu; cbn [start_cache].
  - split; [lia|]. split; [unfold AllocSpec.frames; rewrite Nat.sub_diag; cbn; lia|left; lia].
  - destruct (Nat.ltb_spec i N) as [Hlt|Hge]; cbn [andb]; [|split; [lia|]; split; [unfold AllocSpec.frames; rewrite Nat.sub_diag; cbn; lia|left; lia]].
    destruct (Nat.leb_spec (used + length (data (imap i))) limit) as [Hl|Hl].
    + specialize (IH (S i) (used + length (data (imap i))) ltac:(lia) ltac:(lia) Hl). cbn zeta in *. set (c := start_cache N data imap fuel (S i) limit (used + length (data (imap i)))) in *. destruct IH as (H1 & H2 & H3). split; [lia|]. rewrite frames_S by lia. split; [lia|]. destruct H3 as [H3|H3]; [left; exact H3|right]. rewrite frames_S by lia. lia.
    + split; [lia|]. split; [unfold AllocSpec.frames; rewrite Nat.sub_diag; cbn; lia|right]. rewrite frames_S by lia. lia.
Qed.
(** All the extra frames are those of the range. *)
Lemma extra_range : forall al c s e, c <= s -> s <= e -> e <= N -> (forall j, covered al j <-> j < c \/ s <= j < e) -> extra c al = frames (fun i => i) s e.
Proof.
  intros al c s e H1 H2 H3 Hcov. unfold extra_frames, AllocSpec.frames. rewrite (seq_split c s N) by lia. rewrite (seq_split s e N) by lia. rewrite !map_app, !list_sum_app.
  assert (Hz : forall l, (forall j, In j l -> ~ covered al j) -> list_sum (map (fun j => if coveredb al j then length (data j) else 0) l) = 0).
  { intros l Hl. induction l as [|j l IH]; [reflexivity|]. cbn [map]. rewrite list_sum_cons, IH by (intros k Hk; apply Hl; right; exact Hk). destruct (coveredb al j) eqn:E; [|reflexivity]. apply coveredb_spec in E. destruct (Hl j (or_introl eq_refl) E). }
  rewrite (Hz (seq c (s - c))) by (intros j Hj; apply in_seq in Hj; rewrite Hcov; lia). rewrite (Hz (seq e (N - e))) by (intros j Hj; apply in_seq in Hj; rewrite Hcov; lia).
  rewrite (list_sum_ext (fun j => if coveredb al j then length (data j) else 0) (fun j => length (data j))); [lia|]. intros j Hj. apply in_seq in Hj. destruct (coveredb al j) eqn:E; [reflexivity|]. apply not_true_iff_false in E. destruct E. apply coveredb_spec, Hcov. lia.
Qed.
(** ** With one thread *)
(** The thread that loads the range from [s] to [e'] is at work, and there are no other threads: whatever is marked as loaded is
    loaded. *)
Definition at_work (s e' : nat) (t : task) (st : @cache F) : Prop :=
  table (k_alloc st) /\ (forall j, In j (k_preload st) -> holds (k_alloc st) j (data j)) /\
  match t with
  | TLoad a b => a = s /\ b = e' /\ k_preload_end st = e' /\ (forall j, covered (k_alloc st) j -> In j (k_preload st))
  | TMark js sel => k_preload_end st = e' /\ (forall j, In j js -> holds (k_alloc st) j (data j)) /\
      (forall j, (s <= j < e')%nat -> In j (k_preload st) \/ In j js \/ In j sel) /\ (forall j, In j sel -> covered (k_alloc st) j)
  | TFill sel => k_preload_end st = e' /\ (forall j, (s <= j < e')%nat -> In j (k_preload st) \/ In j sel) /\
      (forall j, In j sel -> covered (k_alloc st) j)
  | TAdd k sel => k_preload_end st = e' /\ holds (k_alloc st) k (data k) /\
      (forall j, (s <= j < e')%nat -> In j (k_preload st) \/ k = j \/ In j sel) /\ (forall j, In j sel -> covered (k_alloc st) j)
  | TEnd => k_preload_end st = e' /\ forall j, (s <= j < e')%nat -> In j (k_preload st)
  | TDone => forall j, (s <= j < e')%nat -> In j (k_preload st)
  | TDead => False
  end.
Lemma at_work_step : forall s e' t st t' st', s < e' -> e' <= N -> at_work s e' t st -> task_step zero N data t st = Some (t', st') ->
  at_work s e' t' st' /\ (forall j, In j (k_preload st) -> In j (k_preload st')).
Proof.
  intros s e' t st t' st' Hse HeN (Ht & Hp & Hw) Hs. destruct t as [a b|js sel|[|k sel]|k sel| | |]; cbn [task_step] in Hs; cbn beta iota in Hw.
  - destruct Hw as (-> & -> & Hpe & Hcv). destruct (is_cached st s e') eqn:Ec.
    + injection Hs as <- <-. split; [|auto]. split; [exact Ht|]. split; [exact Hp|]. split; [exact Hpe|]. apply is_cached_spec in Ec. destruct Ec as [Ec|Ec]; [lia|exact Ec].
    + destruct (insert_table (k_alloc st) s e' Ht Hse HeN) as (al & E & Ht1 & Hcov1 & Hhold1 & _). rewrite E in Hs. injection Hs as <- <-. split; [|auto]. split; [exact Ht1|]. cbn [k_alloc k_preload k_preload_end set_alloc].
      set (sel := filter (fun j => negb (coveredb (k_alloc st) j)) (seq s (e' - s))).
      assert (Hsel : forall j, In j sel <-> s <= j < e' /\ ~ covered (k_alloc st) j) by (intros j; unfold sel; rewrite filter_In, in_seq, negb_true_iff, <- not_true_iff_false, coveredb_spec; split; intros (G1 & G2); (split; [lia|exact G2])).
      assert (Hoth : forall j, In j (others s e' sel) <-> s <= j < e' /\ covered (k_alloc st) j).
      { intros j. unfold others, range. rewrite filter_In, in_seq, negb_true_iff, <- not_true_iff_false, mem_In, Hsel. destruct (coveredb (k_alloc st) j) eqn:Ej; [apply coveredb_spec in Ej; split; intros (G1 & G2); split; [lia|exact Ej|lia|tauto]|].
        apply not_true_iff_false in Ej. rewrite coveredb_spec in Ej. split; [intros (G1 & G2); destruct G2; split; [lia|exact Ej]|intros (_ & G); contradiction]. }
      split; [intros j Hj; apply Hhold1, Hp, Hj|]. split; [exact Hpe|]. split; [|split].
      * intros j Hj. apply Hoth in Hj. apply Hhold1, Hp, Hcv. tauto.
      * intros j Hj. destruct (coveredb (k_alloc st) j) eqn:Ej; [left; apply Hcv, coveredb_spec, Ej|]. apply not_true_iff_false in Ej. rewrite coveredb_spec in Ej. right. right. apply Hsel. auto.
      * intros j Hj. apply Hcov1. right. apply Hsel. exact Hj.
  - destruct Hw as (Hpe & Hjs & Hall & Hsel). injection Hs as <- <-. cbn [k_alloc k_preload k_preload_end set_alloc]. split; [|intros j Hj; apply in_or_app; left; exact Hj]. split; [exact Ht|]. cbn [k_alloc k_preload k_preload_end set_alloc].
    split; [intros j Hj; apply in_app_or in Hj; destruct Hj as [Hj|Hj]; [apply Hp|apply Hjs]; exact Hj|]. split; [exact Hpe|]. split; [|exact Hsel]. intros j Hj. rewrite in_app_iff. specialize (Hall j Hj). tauto.
  - injection Hs as <- <-. split; [|auto]. destruct Hw as (Hpe & Hall & _). split; [exact Ht|]. split; [exact Hp|]. split; [exact Hpe|]. intros j Hj. destruct (Hall j Hj) as [H|[]]. exact H.
  - destruct Hw as (Hpe & Hall & Hsel). destruct (set_table (k_alloc st) k Ht (Hsel k (or_introl eq_refl))) as (al & E & Ht1 & Hcov1 & Hk & Hoth). rewrite E in Hs. injection Hs as <- <-. split; [|auto]. split; [exact Ht1|]. cbn [k_alloc k_preload k_preload_end set_alloc].
    split; [intros j Hj; destruct (Nat.eq_dec j k) as [-> |Hne]; [exact Hk|apply Hoth; [exact Hne|apply Hp; exact Hj]]|]. split; [exact Hpe|]. split; [exact Hk|]. split; [|intros j Hj; apply Hcov1, Hsel; right; exact Hj].
    intros j Hj. destruct (Hall j Hj) as [H|[H|H]]; auto.
  - destruct Hw as (Hpe & Hk & Hall & Hsel). injection Hs as <- <-. cbn [k_preload set_alloc]. split; [|intros j Hj; apply in_or_app; left; exact Hj]. split; [exact Ht|]. cbn [k_alloc k_preload k_preload_end set_alloc].
    split; [intros j Hj; apply in_app_or in Hj; destruct Hj as [Hj|[<- |[]]]; [apply Hp; exact Hj|exact Hk]|]. split; [exact Hpe|]. split; [|exact Hsel]. intros j Hj. rewrite in_app_iff. cbn [In]. specialize (Hall j Hj). tauto.
  - destruct Hw as (Hpe & Hall). injection Hs as <- <-. split; [|auto]. split; [exact Ht|]. split; [exact Hp|]. exact Hall.
  - discriminate Hs.
  - discriminate Hs.
Qed.
Lemma at_work_ready : forall s e' t st, s < e' -> e' <= N -> at_work s e' t st -> t = TDone \/ exists t' st', task_step zero N data t st = Some (t', st').
Proof.
  intros s e' t st Hse HeN (Ht & Hp & Hw). destruct t as [a b|js sel|[|k sel]|k sel| | |]; cbn [task_step]; try (right; eexists _, _; reflexivity); [right|right|left; reflexivity|destruct Hw].
  - destruct Hw as (-> & -> & _). destruct (is_cached st s e'); [eexists _, _; reflexivity|]. destruct (insert_table (k_alloc st) s e' Ht Hse HeN) as (al & E & _). rewrite E. eexists _, _. reflexivity.
  - destruct Hw as (_ & _ & Hsel). destruct (set_table (k_alloc st) k Ht (Hsel k (or_introl eq_refl))) as (al & E & _). rewrite E. eexists _, _. reflexivity.
Qed.
(** All states of the main thread in [load_seqs(s, e)] with its background thread. *)
Definition one_thread (s e : nat) (x : main_pc * list task * @cache F) : Prop :=
  let '(m, ts, st) := x in
  (exists e' t, ts = [t] /\ s < e /\ e <= e' /\ e' <= N /\ at_work s e' t st /\ (m = MWait s e \/ m = MReturned s e /\ forall j, s <= j < e -> In j (k_preload st))) \/
  (m = MLoad s e /\ ts = [] /\ cache_ok st) \/ (m = MReturned s e /\ ts = [] /\ cache_ok st /\ forall j, s <= j < e -> In j (k_preload st)).
Lemma one_thread_step : forall imap s e x y, s <= e -> e <= N -> one_thread s e x -> pstep zero N data imap x y -> one_thread s e y.
Proof.
  intros imap s e x y Hse HeN Hx Hs. destruct Hs as [m ts st m' ts' st' Hs|m ts st k t t' st' Hk Hs].
  - destruct Hx as [(e' & t & -> & H1 & H2 & H3 & Hw & [-> |(-> & _)])|[(-> & -> & Hok)|(-> & _)]]; cbn [main_step] in Hs; [|discriminate Hs| |discriminate Hs].
    + left. exists e', t. assert (Hret : forall st2, (if e <=? k_preload_end st then if is_cached st s e then Some (MReturned s e, [t], st) else None else Some (MReturned s e, [t], st)) = Some (m', ts', st2) -> st2 = st /\ ts' = [t] /\ m' = MReturned s e /\ forall j, s <= j < e -> In j (k_preload st)).
      { intros st2 H. destruct (Nat.leb_spec e (k_preload_end st)) as [Hle|Hgt].
        - destruct (is_cached st s e) eqn:Ec; [|discriminate H]. injection H as <- <- <-. apply is_cached_spec in Ec. destruct Ec as [Ec|Ec]; [lia|]. auto.
        - injection H as <- <- <-. repeat (split; [reflexivity|]). destruct Hw as (_ & _ & Hw). destruct t as [a b|js sel|sel|k sel| | |]; [destruct Hw as (_ & _ & Hpe & _); lia|destruct Hw as (Hpe & _); lia|destruct Hw as (Hpe & _); lia|destruct Hw as (Hpe & _); lia|destruct Hw as (Hpe & _); lia|intros j Hj; apply Hw; lia|destruct Hw]. }
      apply Hret in Hs. destruct Hs as (-> & -> & -> & Hin). repeat (split; [assumption || reflexivity|]). right. auto.
    + destruct (is_cached st s e) eqn:Ec.
      * injection Hs as <- <- <-. right. right. repeat (split; [assumption || reflexivity|]). apply is_cached_spec in Ec. destruct Ec as [Ec|Ec]; [intros j Hj; lia|exact Ec].
      * assert (Hlt : s < e). { destruct (Nat.eq_dec s e) as [-> |]; [|lia]. assert (is_cached st e e = true) by (apply is_cached_spec; auto). congruence. }
        unfold prepare_load in Hs. destruct (delete_ok st Hok) as (st1 & E & Hok1 & R1 & R2 & R3 & Hcov1). rewrite E in Hs. cbn [bind] in Hs. destruct (extend N data imap N e _) as (e', free') eqn:Ee. apply extend_spec in Ee; [|lia|lia]. injection Hs as <- <- <-.
        left. exists e', (TLoad s e'). cbn [app]. split; [reflexivity|]. split; [exact Hlt|]. split; [lia|]. split; [lia|]. destruct Hok1 as (Ht & Hpre & Hdat & _). split; [|left; reflexivity]. split; [exact Ht|]. cbn [k_alloc k_preload k_preload_end].
        split; [intros j Hj; apply Hdat, Hpre, Hj|]. repeat (split; [reflexivity|]). intros j Hj. apply Hpre, Hj.
  - destruct Hx as [(e' & t0 & -> & H1 & H2 & H3 & Hw & Hm)|[(_ & -> & _)|(_ & -> & _)]]; [|destruct k; discriminate Hk|destruct k; discriminate Hk].
    destruct k as [|k]; [|destruct k; discriminate Hk]. injection Hk as ->. cbn [firstn skipn app]. left. exists e', t'. destruct (at_work_step s e' t st t' st' ltac:(lia) H3 Hw Hs) as (Hw' & Hmono).
    repeat (split; [assumption || reflexivity|]). destruct Hm as [Hm|(Hm & Hin)]; [left; exact Hm|right]. split; [exact Hm|]. intros j Hj. apply Hmono, Hin, Hj.
Qed.
Lemma one_thread_steps : forall imap s e x y, s <= e -> e <= N -> one_thread s e x -> psteps zero N data imap x y -> one_thread s e y.
Proof. intros imap s e x y Hse HeN Hx Hs. induction Hs as [x|x y z H1 _ IH]; [exact Hx|]. apply IH. eapply one_thread_step; eassumption. Qed.
Theorem one_thread_data : forall imap s e st m ts st', cache_ok st -> s <= e -> e <= N -> psteps zero N data imap (MLoad s e, [], st) (m, ts, st') ->
  ((exists y, pstep zero N data imap (m, ts, st') y) \/ m = MReturned s e /\ (ts = [] \/ ts = [TDone])) /\
  (m = MReturned s e -> forall i, s <= i < e -> get_input_data data (fun j => j) (k_alloc st') i = Ok (data i)).
Proof.
  intros imap s e st m ts st' Hok Hse HeN Hs. apply (one_thread_steps imap s e) in Hs; [|exact Hse|exact HeN|right; left; auto].
  destruct Hs as [(e' & t & -> & H1 & H2 & H3 & Hw & Hm)|[(-> & -> & Hok')|(-> & -> & Hok' & Hin)]].
  - split.
    + destruct (at_work_ready s e' t st' ltac:(lia) H3 Hw) as [-> |(t' & st2 & Hst)].
      * destruct Hm as [-> |(-> & _)]; [left|right; auto]. destruct Hw as (_ & _ & Hall). assert (Ec : is_cached st' s e = true) by (apply is_cached_spec; right; intros j Hj; apply Hall; lia).
        eexists. apply pstep_main. cbn [main_step]. rewrite Ec. destruct (e <=? k_preload_end st'); reflexivity.
      * left. eexists. eapply (pstep_thread _ _ _ _ m [t] st' 0); [reflexivity|exact Hst].
    + intros -> i Hi. destruct Hm as [Hm|(_ & Hin)]; [discriminate Hm|]. destruct Hw as (Ht & Hp & _). apply (get_table (fun j => j)); [exact Ht|]. apply Hp, Hin, Hi.
  - split; [left|intros H; discriminate H]. destruct (is_cached st' s e) eqn:Ec; [eexists; apply pstep_main; cbn [main_step]; rewrite Ec; reflexivity|].
    destruct (delete_ok st' Hok') as (st1 & E & _). destruct (extend N data imap N e (k_free st1 + extra (k_at_start st') (k_alloc st'))) as (e', free') eqn:Ee. eexists. apply pstep_main. cbn [main_step]. rewrite Ec. unfold prepare_load. rewrite E. cbn [bind]. rewrite Ee. reflexivity.
  - split; [right; auto|]. intros _ i Hi. destruct Hok' as (Ht & Hpre & Hdat & _). apply (get_table (fun j => j)); [exact Ht|]. apply Hdat, Hpre, Hin, Hi.
Qed.
End Proofs.

Section Order.
Context {F : Type}.
Variable zero : F.
Variable corpus : nat -> list F.
Variable limit : nat.
Notation dataset := (@dataset F).
Lemma same_order_eq : forall a b, same_order a b = true <-> a = b.
Proof.
  induction a as [|x a IH]; intros [|y b]; cbn [same_order]; [tauto|split; discriminate|split; discriminate|]. rewrite andb_true_iff, Nat.eqb_eq, IH. split; [intros (-> & ->); reflexivity|intros H; injection H; auto].
Qed.
Lemma index_inv_spec : forall index i0 r, In r index -> exists i, index_inv index i0 r = Some (i0 + i) /\ i < length index /\ nth i index 0 = r.
Proof.
  induction index as [|r' index IH]; intros i0 r Hr; [destruct Hr|]. cbn [index_inv]. destruct (in_dec Nat.eq_dec r index) as [Hin|Hno].
  - destruct (IH (S i0) r Hin) as (i & E & H1 & H2). rewrite E. exists (S i). cbn [length nth]. split; [f_equal; lia|]. split; [lia|exact H2].
  - destruct Hr as [-> |Hr]; [|contradiction]. assert (E : index_inv index (S i0) r = None).
    { clear IH. revert i0. induction index as [|r2 index IH2]; intros i0; [reflexivity|]. cbn [index_inv]. rewrite IH2 by (intros H; apply Hno; right; exact H). destruct (Nat.eqb_spec r r2) as [-> |]; [destruct Hno; left; reflexivity|reflexivity]. }
    rewrite E, Nat.eqb_refl. exists 0. cbn [length nth]. split; [f_equal; lia|]. split; [lia|reflexivity].
Qed.
Definition ds_ok (d : dataset) : Prop :=
  (d_index d = [] /\ d_map d = [] /\ k_at_start (d_cache d) = 0) \/
  (cache_ok zero (length (d_index d)) (frames_of corpus (d_index d)) (d_cache d) /\ length (d_map d) = length (d_index d) /\ Forall (fun j => j < length (d_index d)) (d_map d) /\
   (k_at_start (d_cache d) = length (d_index d) \/ d_map d = seq 0 (length (d_index d)))).
Lemma map_nth_seq : forall (l : list nat), map (fun j => nth j l 0) (seq 0 (length l)) = l.
Proof.
  intros l. apply nth_error_ext. intros i. destruct (Nat.lt_ge_cases i (length l)) as [H|H].
  - rewrite (map_nth_error (fun j => nth j l 0) i (seq 0 (length l)) (d := i)) by (rewrite nth_error_seq by exact H; f_equal; lia). symmetry. apply nth_error_nth'. exact H.
  - rewrite (proj2 (nth_error_None _ _)) by (rewrite map_length, seq_length; exact H). symmetry. apply nth_error_None. exact H.
Qed.
Lemma seq_lt : forall n, Forall (fun j => j < n) (seq 0 n).
Proof. intros n. apply Forall_forall. intros j Hj. apply in_seq in Hj. lia. Qed.
Theorem order_ok : forall d order, ds_ok d -> allowed d order -> exists d', init_order zero corpus limit order d = Ok d' /\ ds_ok d' /\ current d' = order.
Proof.
  intros d order Hd (Hne & Hal). assert (Hlen : length order <> 0) by (destruct order; [congruence|discriminate]). unfold init_order. destruct (same_order order (d_index d)) eqn:Es.
  - apply same_order_eq in Es. destruct Hd as [(E & _)|(Hok & Hl & Hf & Hc)]; [congruence|]. eexists. split; [reflexivity|]. rewrite Es. split; [|apply map_nth_seq]. right. cbn [d_index d_map d_cache]. split; [exact Hok|]. split; [apply seq_length|]. split; [apply seq_lt|right; reflexivity].
  - destruct (Nat.eqb_spec (k_at_start (d_cache d)) (length order)) as [E|E]; cbn [negb].
    + specialize (Hal E). destruct Hd as [(E1 & _ & E2)|(Hok & Hl & Hf & Hc)]; [lia|]. pose proof (Permutation_length Hal) as Hpl.
      assert (Hm : exists m, mapM (fun r => match index_inv (d_index d) 0 r with Some i => Ok i | None => Err KeyError end) order = Ok m /\ length m = length order /\ Forall (fun j => j < length (d_index d)) m /\ map (fun j => nth j (d_index d) 0) m = order).
      { assert (Hin : forall r, In r order -> In r (d_index d)) by (intros r Hr; eapply Permutation_in; eassumption). clear - Hin zero corpus limit. induction order as [|r order IH]; [exists []; repeat split; constructor|]. cbn [mapM].
        destruct (index_inv_spec (d_index d) 0 r (Hin r (or_introl eq_refl))) as (i & Ei & Hi & Hn). rewrite Ei. cbn [bind]. destruct IH as (m & Em & H1 & H2 & H3); [intros r' Hr'; apply Hin; right; exact Hr'|]. rewrite Em. cbn [bind].
        exists (i :: m). cbn [length map Nat.add]. split; [reflexivity|]. split; [lia|]. split; [constructor; assumption|]. rewrite Hn, H3. reflexivity. }
      destruct Hm as (m & Em & H1 & H2 & H3). rewrite Em. cbn [bind]. eexists. split; [reflexivity|]. split; [|exact H3]. right. cbn [d_index d_map d_cache]. split; [exact Hok|]. split; [lia|]. split; [exact H2|left; lia].
    + replace (0 <? length order) with true by lia. cbn [assert_ bind]. destruct (init_ok zero (length order) (frames_of corpus order) (fun i => i) limit (k_free (d_cache d)) ltac:(lia)) as (st & Est & Hok & _). rewrite Est. cbn [bind].
      eexists. split; [reflexivity|]. split; [|apply map_nth_seq]. right. cbn [d_index d_map d_cache]. split; [exact Hok|]. split; [apply seq_length|]. split; [apply seq_lt|right; reflexivity].
Qed.
Theorem dload_ok : forall d s e, ds_ok d -> s <= e -> e <= length (d_map d) -> exists d', d_load zero corpus s e d = Ok d' /\ ds_ok d' /\ current d' = current d /\
  forall i, s <= i < e -> d_get corpus d' i = Ok (corpus (nth i (current d') 0)).
Proof.
  intros d s e Hd Hse He. unfold d_load. destruct Hd as [(E1 & E2 & E3)|(Hok & Hl & Hf & Hc)].
  - rewrite E2 in *. cbn [length] in He. assert (e = 0) by lia. assert (s = 0) by lia. subst. eexists. split; [reflexivity|]. split; [left; auto|]. split; [unfold current; cbn [d_map d_index]; rewrite E2; reflexivity|]. intros i Hi. lia.
  - rewrite Hl in *. destruct (load_ok zero (length (d_index d)) (frames_of corpus (d_index d)) (map_of (d_map d)) (d_cache d) s e Hok Hse He) as (st' & E & Hok' & Hcov & Hcs & _). rewrite E. cbn [bind].
    eexists. split; [reflexivity|]. split; [right; cbn [d_index d_map d_cache]; rewrite Hcs; auto|]. split; [reflexivity|]. intros i Hi. unfold d_get, current. cbn [d_index d_map d_cache].
    assert (Hmi : nth i (map (fun j => nth j (d_index d) 0) (d_map d)) 0 = nth (map_of (d_map d) i) (d_index d) 0).
    { unfold map_of. rewrite (nth_indep _ 0 (nth 0 (d_index d) 0)) by (rewrite map_length; lia). apply (map_nth (fun j => nth j (d_index d) 0)). }
    rewrite Hmi. destruct Hok' as (Ht & _ & Hdat & _ & Hst). apply get_table with (1 := Ht). apply Hdat. destruct Hc as [Hc|Hc].
    + apply Hst. rewrite Hcs, Hc. rewrite Forall_forall in Hf. apply Hf. unfold map_of. apply nth_In. lia.
    + rewrite Hc. unfold map_of. rewrite seq_nth by lia. apply Hcov. lia.
Qed.
Theorem history_ok : forall free d, history zero corpus limit free d -> ds_ok d.
Proof.
  intros free d H. induction H as [|d order d' _ IH Hal E|d s e d' _ IH Hse E].
  - left. auto.
  - destruct (order_ok d order IH Hal) as (d2 & E2 & Hok & _). congruence.
  - destruct (dload_ok d s e IH ltac:(lia) ltac:(lia)) as (d2 & E2 & Hok & _). congruence.
Qed.
End Order.
