From Coq Require Import Lia.
From Verif Require Import Base NccModel NccSpec.

Lemma set_pc_same p c w : pcs (set_pc p c w) p = c. Proof. cbn. now rewrite Nat.eqb_refl. Qed.
Lemma set_pc_other p c w q : p <> q -> pcs (set_pc p c w) q = pcs w q. Proof. intro H. cbn. now rewrite (proj2 (Nat.eqb_neq p q) H). Qed.

Lemma history_snoc key deps limit ok es e : forall w, history key deps limit ok (es ++ [e]) w <-> history key deps limit ok es w /\ ok e (run key deps limit es w).
Proof. induction es as [|a es IH]; intro w; cbn [history app run fold_left]. - unfold run. cbn. tauto. - rewrite IH. unfold run. tauto. Qed.
Lemma run_snoc key deps limit es e w : run key deps limit (es ++ [e]) w = exec key deps limit e (run key deps limit es w).
Proof. unfold run. now rewrite fold_left_app. Qed.

(** Invariants hold along histories. *)
Lemma history_inv key deps limit (ok : event -> world -> Prop) (I : world -> Prop) : (forall e w, ok e w -> I w -> I (exec key deps limit e w)) ->
  forall es w, I w -> history key deps limit ok es w -> I (run key deps limit es w).
Proof. intro H. induction es as [|e es IH]; intros w Hw Hh; cbn in *; auto. apply IH; [apply H|]; tauto. Qed.

Lemma act_other key deps limit p w q : p <> q -> pcs (act key deps limit p w) q = pcs w q.
Proof.
  intro H. assert (E : (p =? q) = false) by now apply Nat.eqb_neq.
  unfold act. destruct (pcs w p); auto; cbn [set_pc pcs rmtree set_info set_so set_lock set_present];
    repeat match goal with |- context [match ?x with _ => _ end] => lazymatch x with (_ =? _) => fail | _ => destruct x end end; cbn; rewrite ?E; auto.
Qed.

Section Serial.
  Variables (key : nat -> nat) (k limit : nat) (strict : bool).
  Hypothesis Hkey : forall p, key p = k.
  Let nodeps := fun _ : nat => false.

  Definition complete w : Prop := exists m d m', info w = Some (Some k, m) /\ so w = Some (Lib k d, m').
  Definition base w : Prop := info w = None \/ complete w \/ (strict = false /\ exists m x, info w = Some (None, m) /\ so w = Some x).
  Definition fin c : Prop := match c with Loaded l => exists d, l = Lib k d | Failed e => strict = false /\ e = OtherException | _ => True end.
  Definition is_lib w : Prop := exists d m, so w = Some (Lib k d, m).
  Definition is_so w : Prop := exists x, so w = Some x.
  Definition mid p w c : Prop :=
    match c with
    | CheckSo _ | Clean | CleanInfo | CleanSo | Remove => base w
    | CleanAge => base w /\ is_so w
    | CheckInfo _ => base w /\ is_so w
    | Touch | Load => complete w
    | Take => info w = None
    | Compile => info w = None /\ present w = true /\ lock w = Some p
    | Link _ => info w = None /\ present w = true /\ lock w = Some p /\ is_so w
    | OpenInfo => info w = None /\ present w = true /\ lock w = Some p /\ is_lib w
    | WriteInfo => (exists m, info w = Some (None, m)) /\ lock w = Some p /\ is_lib w
    | Verify | Release None => complete w /\ lock w = Some p
    | _ => False
    end.
  Definition SInv w : Prop := (forall p, ended (pcs w p) = true -> fin (pcs w p)) /\ (forall p q, ended (pcs w p) = false -> ended (pcs w q) = false -> p = q) /\
    (forall p, ended (pcs w p) = false -> mid p w (pcs w p)) /\ (quiet w -> base w).

  Ltac fin_tac := unfold base, complete, is_lib, is_so in *; cbn [so info lock present set_pc set_so set_info set_lock set_present rmtree] in *; eauto 12.

  Lemma step_act p w : ended (pcs w p) = false -> mid p w (pcs w p) ->
    let w' := act key nodeps limit p w in let c' := pcs w' p in
    (ended c' = true -> fin c' /\ base w') /\ (ended c' = false -> mid p w' c').
  Proof.
    intros He Hm. unfold act. destruct (pcs w p) eqn:Ec; cbn [mid ended] in *; try discriminate; try contradiction; cbn zeta; rewrite ?set_pc_same.
    - (* CheckSo *) destruct (so w) eqn:Es; cbn; rewrite ?Nat.eqb_refl.
      + split; [discriminate|]. intros _. fin_tac.
      + assert (info w = None). { destruct Hm as [H|[(? & ? & ? & H1 & H2)|(_ & ? & ? & H1 & H2)]]; congruence. }
        destruct second; cbn; split; try discriminate; intros _; auto.
    - (* CheckInfo *) destruct Hm as [[H|[(m & d & m' & H1 & H2)|(S & m & x & H1 & H2)]] Hs].
      + rewrite H. destruct second; cbn; rewrite ?Nat.eqb_refl; cbn; split; try discriminate; intros _; auto. now left.
      + rewrite H1, Hkey, Nat.eqb_refl. cbn. rewrite ?Nat.eqb_refl. cbn. split; [discriminate|]. intros _. fin_tac.
      + rewrite H1. cbn. rewrite ?Nat.eqb_refl. cbn. split; [|discriminate]. intros _. split; auto. fin_tac.
    - (* Touch *) destruct Hm as (m & d & m' & H1 & H2). rewrite H1, set_pc_same. cbn. split; [discriminate|]. intros _. fin_tac.
    - (* Take *) destruct (lock w) eqn:El. { rewrite Ec. cbn. split; [discriminate|auto]. } rewrite set_pc_same. cbn. split; [discriminate|]. auto.
    - (* Compile *) destruct Hm as (H1 & H2 & H3). rewrite H2, set_pc_same. cbn. split; [discriminate|]. intros _. fin_tac.
    - (* Link *) destruct Hm as (H1 & H2 & H3 & (x & H4)). rewrite H4, set_pc_same, Hkey. cbn. split; [discriminate|]. intros _. fin_tac.
    - (* OpenInfo *) destruct Hm as (H1 & H2 & H3 & H4). rewrite H2, set_pc_same. cbn. split; [discriminate|]. intros _. fin_tac.
    - (* WriteInfo *) destruct Hm as ((m & H1) & H3 & (d & m' & H4)). rewrite H1, Hkey. cbn. split; [discriminate|]. intros _. fin_tac.
    - (* Verify *) destruct Hm as ((m & d & m' & H1 & H2) & H3). unfold need_recompile. rewrite H1, H2, Hkey, Nat.eqb_refl. cbn. rewrite ?Nat.eqb_refl. cbn. split; [discriminate|]. intros _. fin_tac.
    - (* Release *) destruct e; [contradiction|]. destruct Hm as (Hc & H3). rewrite H3, set_pc_same. cbn. split; [discriminate|]. intros _. fin_tac.
    - (* Load *) destruct Hm as (m & d & m' & H1 & H2). rewrite H2. cbn. split; [|discriminate]. intros _. split; [eauto|]. fin_tac.
    - (* Clean *) destruct (lock w) eqn:El, (present w) eqn:Ep; cbn; (split; [|try discriminate]); intro; try discriminate; try split; auto; fin_tac.
    - destruct (info w) eqn:Ei; cbn; (split; [discriminate|]); intros _; fin_tac.
    - destruct (so w) eqn:Es; cbn; (split; [discriminate|]); intros _; fin_tac.
    - destruct Hm as (Hb & ([l m] & Hs)). rewrite Hs. destruct (m + limit <? now w); cbn; (split; [|try discriminate]); intro; try discriminate; try split; auto; fin_tac.
    - cbn. split; [|discriminate]. intros _. split; [exact Logic.I|]. now left.
  Qed.

  Lemma mid_base p w : ended (pcs w p) = false -> mid p w (pcs w p) -> (strict = true -> pcs w p <> WriteInfo) -> base w.
  Proof.
    intros He Hm Hs. destruct (pcs w p); cbn [mid ended] in *; try discriminate; try contradiction; auto; try (unfold base; tauto).
    - destruct Hm as ((m & H1) & _ & (d & m' & H2)). right. right. split; [|eauto]. destruct strict; auto. exfalso. now apply Hs.
    - destruct e; [contradiction|]. unfold base. tauto.
  Qed.
  Lemma mid_lock p w w' c : so w' = so w -> info w' = info w -> present w' = present w -> lock w' = lock w -> mid p w c -> mid p w' c.
  Proof. intros H1 H2 H3 H4. unfold mid, base, complete, is_so, is_lib. rewrite H1, H2, H3, H4. auto. Qed.

  Lemma serial_step e w : one_at_a_time e w /\ (strict = true -> info_written e w) -> SInv w -> SInv (exec key nodeps limit e w).
  Proof.
    intros [Ho Hi] (F & U & M & B). destruct e as [p|p|p|p| |d|d]; cbn [exec].
    - (* Start *) destruct (pcs w p) eqn:Ep; try (repeat split; assumption). cbn in Ho. specialize (B Ho).
      assert (P : forall q, q <> p -> ended (pcs (set_pc p (CheckSo false) w) q) = true) by (intros q Hq; rewrite set_pc_other; auto).
      split; [|split; [|split]].
      + intros q. destruct (Nat.eq_dec q p) as [->|Hq]; [now rewrite set_pc_same|]. rewrite set_pc_other by auto. apply F.
      + intros a b Ha Hb. destruct (Nat.eq_dec a p) as [->|Hna]; [|rewrite (P a Hna) in Ha; discriminate]. destruct (Nat.eq_dec b p) as [->|Hnb]; auto. rewrite (P b Hnb) in Hb; discriminate.
      + intros q Hq. destruct (Nat.eq_dec q p) as [->|Hn]; [|rewrite (P q Hn) in Hq; discriminate]. rewrite set_pc_same. exact B.
      + intro Q. specialize (Q p). rewrite set_pc_same in Q. discriminate.
    - destruct (pcs w p) eqn:Ep; try (repeat split; assumption). cbn in Ho. specialize (B Ho).
      assert (P : forall q, q <> p -> ended (pcs (set_pc p Clean w) q) = true) by (intros q Hq; rewrite set_pc_other; auto).
      split; [|split; [|split]].
      + intros q. destruct (Nat.eq_dec q p) as [->|Hq]; [now rewrite set_pc_same|]. rewrite set_pc_other by auto. apply F.
      + intros a b Ha Hb. destruct (Nat.eq_dec a p) as [->|Hna]; [|rewrite (P a Hna) in Ha; discriminate]. destruct (Nat.eq_dec b p) as [->|Hnb]; auto. rewrite (P b Hnb) in Hb; discriminate.
      + intros q Hq. destruct (Nat.eq_dec q p) as [->|Hn]; [|rewrite (P q Hn) in Hq; discriminate]. rewrite set_pc_same. exact B.
      + intro Q. specialize (Q p). rewrite set_pc_same in Q. discriminate.
    - (* Act *) destruct (ended (pcs w p)) eqn:He.
      + replace (act key nodeps limit p w) with w; [repeat split; assumption|]. unfold act. destruct (pcs w p); cbn in He; congruence.
      + destruct (step_act p w He (M p He)) as [S1 S2]. cbn zeta in S1, S2.
        assert (P : forall q, q <> p -> pcs (act key nodeps limit p w) q = pcs w q) by (intros q Hq; apply act_other; congruence).
        assert (P' : forall q, q <> p -> ended (pcs w q) = true). { intros q Hq. destruct (ended (pcs w q)) eqn:Eq; [reflexivity|]. exfalso. apply Hq. now apply U. }
        split; [|split; [|split]].
        * intros q Hq. destruct (Nat.eq_dec q p) as [->|Hn]; [now apply S1|]. rewrite P in * by auto. auto.
        * intros a b Ha Hb. destruct (Nat.eq_dec a p) as [->|Hna]; [|rewrite P, P' in Ha by auto; discriminate]. destruct (Nat.eq_dec b p) as [->|Hnb]; auto. rewrite P, P' in Hb by auto; discriminate.
        * intros q Hq. destruct (Nat.eq_dec q p) as [->|Hn]; [auto|]. rewrite P, P' in Hq by auto; discriminate.
        * intro Q. apply S1. apply Q.
    - (* Crash *) destruct (ended (pcs w p)) eqn:He.
      + replace (match pcs w p with Idle | Loaded _ | Failed _ | Cleaned | Dead => w | _ => set_pc p Dead w end) with w; [repeat split; assumption|]. destruct (pcs w p); cbn in He; congruence.
      + replace (match pcs w p with Idle | Loaded _ | Failed _ | Cleaned | Dead => w | _ => set_pc p Dead w end) with (set_pc p Dead w) by (destruct (pcs w p); cbn in He; congruence).
        assert (Bw : base w) by (eapply mid_base; eauto).
        assert (P' : forall q, q <> p -> ended (pcs w q) = true). { intros q Hq. destruct (ended (pcs w q)) eqn:Eq; [reflexivity|]. exfalso. apply Hq. now apply U. }
        assert (Q : forall q, ended (pcs (set_pc p Dead w) q) = true). { intro q. destruct (Nat.eq_dec q p) as [->|Hn]; [now rewrite set_pc_same|]. rewrite set_pc_other by auto. auto. }
        split; [|split; [|split]].
        * intros q _. destruct (Nat.eq_dec q p) as [->|Hn]; [now rewrite set_pc_same|]. rewrite set_pc_other by auto. auto.
        * intros a b Ha. rewrite Q in Ha. discriminate.
        * intros q Hq. rewrite Q in Hq. discriminate.
        * intros _. exact Bw.
    - (* Expire *) destruct (lock w) as [q|] eqn:El; [|repeat split; assumption]. destruct (pcs w q) eqn:Eq; try (repeat split; assumption).
      split; [exact F|]. split; [exact U|]. split; [|exact B]. intros p Hp. change (pcs (set_lock None w) p) with (pcs w p) in *.
      specialize (M p Hp). assert (Hn : lock w <> Some p). { intro E. assert (p = q) by congruence. subst p. rewrite Eq in Hp. discriminate. }
      destruct (pcs w p); cbn [mid ended] in *; try discriminate; try contradiction; try exact M; try (exfalso; tauto). destruct e; tauto.
    - split; [exact F|]. split; [exact U|]. split; [|exact B]. intros p Hp. apply (mid_lock p w); try reflexivity. exact (M p Hp).
    - split; [exact F|]. split; [exact U|]. split; [|exact B]. intros p Hp. apply (mid_lock p w); try reflexivity. exact (M p Hp).
  Qed.

  Lemma serial_fresh : SInv fresh.
  Proof. split; [intros p _; exact Logic.I|]. split; [intros p q H; discriminate|]. split; [intros p H; discriminate|]. intros _. now left. Qed.
  Lemma serial_inv es : history key nodeps limit (fun e w => one_at_a_time e w /\ (strict = true -> info_written e w)) es fresh -> SInv (run key nodeps limit es fresh).
  Proof. apply (history_inv key nodeps limit (fun e w => one_at_a_time e w /\ (strict = true -> info_written e w)) SInv); [exact serial_step|exact serial_fresh]. Qed.
End Serial.

(** With dependencies, without crashes *)
Section Deps.
  Variables (key : nat -> nat) (deps : nat -> bool) (k limit : nat).
  Hypothesis Hkey : forall p, key p = k.

  Definition dcomplete w : Prop := exists m d m', info w = Some (Some k, m) /\ so w = Some (Lib k d, m') /\ m' <= now w /\ (dep w <= m' -> d = dep w).
  Definition dbase w : Prop := info w = None \/ dcomplete w.
  Definition current p w : Prop := deps p = true -> exists l m, so w = Some (l, m) /\ dep w <= m.
  Definition good w : Prop := exists m, so w = Some (Lib k (dep w), m) /\ dep w <= m <= now w.
  Definition dfin c : Prop := match c with Failed _ => False | _ => True end.
  Definition dmid p w c : Prop :=
    match c with
    | CheckSo _ | Clean | CleanInfo | CleanSo | Remove | Take => dbase w
    | CleanAge | CheckDep _ => dbase w /\ is_so w
    | CheckInfo _ => dbase w /\ is_so w /\ current p w
    | Touch | Load => dcomplete w /\ current p w
    | Compile => present w = true /\ lock w = Some p
    | Link d => present w = true /\ lock w = Some p /\ is_so w /\ d = dep w
    | OpenInfo => present w = true /\ lock w = Some p /\ good w
    | WriteInfo => (exists m, info w = Some (None, m)) /\ lock w = Some p /\ good w
    | Verify | Release None => (exists m, info w = Some (Some k, m)) /\ lock w = Some p /\ good w
    | _ => False
    end.
  Definition DInv w : Prop := dep w <= now w /\ (forall p, ended (pcs w p) = true -> dfin (pcs w p)) /\ (forall p q, ended (pcs w p) = false -> ended (pcs w q) = false -> p = q) /\
    (forall p, ended (pcs w p) = false -> dmid p w (pcs w p)) /\ (quiet w -> dbase w).

  Lemma good_complete w m : info w = Some (Some k, m) -> good w -> dcomplete w.
  Proof. intros H (m' & H1 & H2). exists m, (dep w), m'. repeat split; auto. lia. Qed.

  Ltac dtac := unfold dbase, dcomplete, current, good, is_so in *; cbn [so info lock present now dep set_pc set_so set_info set_lock set_present rmtree] in *; eauto 14.

  Lemma dstep_act p w : dep w <= now w -> ended (pcs w p) = false -> dmid p w (pcs w p) ->
    let w' := act key deps limit p w in let c' := pcs w' p in
    (ended c' = true -> dfin c' /\ dbase w') /\ (ended c' = false -> dmid p w' c').
  Proof.
    intros Hd He Hm. unfold act. destruct (pcs w p) eqn:Ec; cbn [dmid ended] in *; try discriminate; try contradiction; cbn zeta; rewrite ?set_pc_same.
    - destruct (so w) eqn:Es; [destruct (deps p) eqn:Ed|destruct second]; cbn; (split; [discriminate|]); intros _; dtac.
      split; [exact Hm|]. split; [eauto|]. intro; congruence.
    - destruct Hm as [Hb ([l m] & Hs)]. rewrite Hs. destruct (m <? dep w) eqn:Em; [destruct second|]; cbn; (split; [discriminate|]); intros _; dtac.
      apply Nat.ltb_ge in Em. split; [exact Hb|]. split; [eauto|]. eauto.
    - destruct Hm as ([H|(m & d & m' & H1 & H2 & H3 & H4)] & Hs & Hcur).
      + rewrite H. destruct second; cbn; (split; [discriminate|]); intros _; dtac.
      + rewrite H1, Hkey, Nat.eqb_refl. cbn. split; [discriminate|]. intros _. split; [|exact Hcur]. exists m, d, m'. auto.
    - destruct Hm as ((m & d & m' & H1 & H2 & H3 & H4) & Hcur). rewrite H1, set_pc_same. cbn. split; [discriminate|]. intros _. split; [|exact Hcur]. exists (now w), d, m'. cbn. auto.
    - destruct (lock w) eqn:El. { rewrite Ec. cbn. split; [discriminate|auto]. } rewrite set_pc_same. cbn. split; [discriminate|]. auto.
    - destruct Hm as (H2 & H3). rewrite H2, set_pc_same. cbn. split; [discriminate|]. intros _. repeat split; auto. dtac.
    - destruct Hm as (H2 & H3 & (x & H4) & ->). rewrite H4, set_pc_same, Hkey. cbn. split; [discriminate|]. intros _. repeat split; auto. exists (now w). cbn. auto.
    - destruct Hm as (H2 & H3 & H4). rewrite H2, set_pc_same. cbn. split; [discriminate|]. intros _. split; [eauto|]. split; auto.
    - destruct Hm as ((m & H1) & H3 & H4). rewrite H1, Hkey. cbn. split; [discriminate|]. intros _. split; [eauto|]. split; auto.
    - destruct Hm as ((m & H1) & H3 & (m' & H4 & H5)). unfold need_recompile. rewrite H1, H4, Hkey, Nat.eqb_refl. rewrite (proj2 (Nat.ltb_ge m' (dep w))) by lia. rewrite Bool.andb_false_r. cbn.
      split; [discriminate|]. intros _. split; [eauto|]. split; auto. exists m'. auto.
    - destruct e; [contradiction|]. destruct Hm as ((m & H1) & H3 & Hg). rewrite H3, set_pc_same. cbn. split; [discriminate|]. intros _. split; [exact (good_complete _ m H1 Hg)|].
      intros _. destruct Hg as (m' & H4 & H5). cbn. exists (Lib k (dep w)), m'. split; auto. lia.
    - destruct Hm as (Hc & Hcur). pose proof Hc as (m & d & m' & H1 & H2 & H3). rewrite H2. cbn. split; [|discriminate]. intros _. split; [exact Logic.I|]. right. exact Hc.
    - destruct (lock w) eqn:El, (present w) eqn:Ep; cbn; (split; [|try discriminate]); intro; try discriminate; try split; auto; dtac.
    - destruct (info w) eqn:Ei; cbn; (split; [discriminate|]); intros _; dtac.
    - destruct (so w) eqn:Es; cbn; (split; [discriminate|]); intros _; dtac.
    - destruct Hm as (Hb & ([l m] & Hs)). rewrite Hs. destruct (m + limit <? now w); cbn; (split; [|try discriminate]); intro; try discriminate; try split; auto; dtac.
    - cbn. split; [|discriminate]. intros _. split; [exact Logic.I|]. now left.
  Qed.

  Lemma act_times p w : now (act key deps limit p w) = now w /\ dep (act key deps limit p w) = dep w.
  Proof.
    unfold act. destruct (pcs w p); auto; cbn; auto;
      repeat match goal with |- context [match ?x with _ => _ end] => destruct x end; auto.
  Qed.

  Lemma dstart p c w : dbase w -> quiet w -> c = CheckSo false \/ c = Clean -> DInv w -> DInv (set_pc p c w).
  Proof.
    intros B Ho Hc (T & F & U & M & _). assert (Ec : ended c = false) by (destruct Hc as [-> | ->]; reflexivity).
    assert (P : forall q, q <> p -> ended (pcs (set_pc p c w) q) = true) by (intros q Hq; rewrite set_pc_other; auto).
    split; [exact T|]. split; [|split; [|split]].
    - intros q. destruct (Nat.eq_dec q p) as [->|Hq]; [rewrite set_pc_same; congruence|]. rewrite set_pc_other by auto. apply F.
    - intros a b Ha Hb. destruct (Nat.eq_dec a p) as [->|Hna]; [|rewrite (P a Hna) in Ha; discriminate]. destruct (Nat.eq_dec b p) as [->|Hnb]; auto. rewrite (P b Hnb) in Hb; discriminate.
    - intros q Hq. destruct (Nat.eq_dec q p) as [->|Hn]; [|rewrite (P q Hn) in Hq; discriminate]. rewrite set_pc_same. destruct Hc as [-> | ->]; exact B.
    - intro Q. specialize (Q p). rewrite set_pc_same in Q. congruence.
  Qed.

  Lemma deps_step e w : one_at_a_time e w /\ no_crash e w /\ edits_between e w -> DInv w -> DInv (exec key deps limit e w).
  Proof.
    intros (Ho & Hn & Hed) HI. pose proof HI as (T & F & U & M & B). destruct e as [p|p|p|p| |d|d]; cbn [exec]; [| | |contradiction| | |].
    - destruct (pcs w p) eqn:Ep; try exact HI. apply dstart; auto.
    - destruct (pcs w p) eqn:Ep; try exact HI. apply dstart; auto.
    - destruct (ended (pcs w p)) eqn:He.
      + replace (act key deps limit p w) with w; [exact HI|]. unfold act. destruct (pcs w p); cbn in He; congruence.
      + destruct (dstep_act p w T He (M p He)) as [S1 S2]. cbn zeta in S1, S2. destruct (act_times p w) as [T1 T2].
        assert (P : forall q, q <> p -> pcs (act key deps limit p w) q = pcs w q) by (intros q Hq; apply act_other; congruence).
        assert (P' : forall q, q <> p -> ended (pcs w q) = true). { intros q Hq. destruct (ended (pcs w q)) eqn:Eq; [reflexivity|]. exfalso. apply Hq. now apply U. }
        split; [congruence|]. split; [|split; [|split]].
        * intros q Hq. destruct (Nat.eq_dec q p) as [->|Hnq]; [now apply S1|]. rewrite P in * by auto. auto.
        * intros a b Ha Hb. destruct (Nat.eq_dec a p) as [->|Hna]; [|rewrite P, P' in Ha by auto; discriminate]. destruct (Nat.eq_dec b p) as [->|Hnb]; auto. rewrite P, P' in Hb by auto; discriminate.
        * intros q Hq. destruct (Nat.eq_dec q p) as [->|Hnq]; [auto|]. rewrite P, P' in Hq by auto; discriminate.
        * intro Q. apply S1. apply Q.
    - destruct (lock w) as [q|] eqn:El; [|exact HI]. destruct (pcs w q) eqn:Eq; try exact HI.
      split; [exact T|]. split; [exact F|]. split; [exact U|]. split; [|exact B]. intros p Hp. change (pcs (set_lock None w) p) with (pcs w p) in *.
      specialize (M p Hp). assert (Hnl : lock w <> Some p). { intro E. assert (p = q) by congruence. subst p. rewrite Eq in Hp. discriminate. }
      destruct (pcs w p); cbn [dmid ended] in *; try discriminate; try contradiction; try exact M; try (exfalso; tauto). destruct e; tauto.
    - split; [cbn; lia|]. split; [exact F|]. split; [exact U|].
      assert (C : dcomplete w -> dcomplete (World (present w) (so w) (info w) (lock w) (now w + d) (dep w) (pcs w))) by (intros (m & dd & m' & H1 & H2 & H3 & H4); exists m, dd, m'; cbn; repeat split; auto; lia).
      assert (G : good w -> good (World (present w) (so w) (info w) (lock w) (now w + d) (dep w) (pcs w))) by (intros (m & H1 & H2); exists m; cbn; split; auto; lia).
      split.
      + intros p Hp. change (pcs (World (present w) (so w) (info w) (lock w) (now w + d) (dep w) (pcs w)) p) with (pcs w p) in *. specialize (M p Hp).
        destruct (pcs w p); cbn [dmid ended] in *; try discriminate; try contradiction; try destruct e; unfold dbase in *; try tauto.
      + intro Q. specialize (B Q). unfold dbase in *. tauto.
    - cbn in Hed. split; [cbn; lia|]. split; [exact F|]. split; [exact U|]. split; [intros p Hp; specialize (Hed p); cbn in Hp; congruence|].
      intros _. destruct (B Hed) as [H|(m & dd & m' & H1 & H2 & H3 & H4)]; [now left|]. right. exists m, dd, m'. cbn. repeat split; auto; lia.
  Qed.
  Lemma deps_inv es : history key deps limit (fun e w => one_at_a_time e w /\ no_crash e w /\ edits_between e w) es fresh -> DInv (run key deps limit es fresh).
  Proof.
    apply (history_inv key deps limit (fun e w => one_at_a_time e w /\ no_crash e w /\ edits_between e w) DInv); [exact deps_step|].
    split; [cbn; lia|]. split; [intros p _; exact Logic.I|]. split; [intros p q H; discriminate|]. split; [intros p H; discriminate|]. intros _. now left.
  Qed.
  Lemma deps_load w p : DInv w -> pcs w p = Load -> exists d m, so w = Some (Lib k d, m) /\ (deps p = true -> d = dep w).
  Proof.
    intros (T & F & U & M & B) E. specialize (M p). rewrite E in M. destruct (M eq_refl) as [(m & d & m' & H1 & H2 & H3 & H4) Hc].
    exists d, m'. split; auto. intro Hdp. destruct (Hc Hdp) as (l & m2 & H5 & H6). apply H4. congruence.
  Qed.
End Deps.

(** Any number of processes at the same time, without crashes and cleaning up *)
Section Concurrent.
  Variables (key : nat -> nat) (k limit : nat).
  Hypothesis Hkey : forall p, key p = k.
  Let nodeps := fun _ : nat => false.

  Definition content w : option (option nat) := option_map fst (info w).
  Definition info_nc w : Prop := content w = None \/ content w = Some (Some k).
  Definition nothing_or_all w : Prop := (so w = None /\ content w = None) \/ (is_lib k w /\ content w = Some (Some k)).
  Definition holder w c : Prop :=
    match c with
    | Compile => nothing_or_all w
    | Link _ => is_so w /\ info_nc w
    | OpenInfo => is_lib k w /\ info_nc w
    | WriteInfo => is_lib k w /\ content w = Some None
    | Verify | Release None => is_lib k w /\ content w = Some (Some k)
    | _ => False
    end.
  Definition lockst w : Prop := match lock w with None => nothing_or_all w | Some p => present w = true /\ holder w (pcs w p) end.
  Definition proc w c : Prop :=
    match c with
    | CheckInfo _ => is_so w
    | Touch | Load => is_so w /\ info w <> None
    | Failed e => e = OtherException
    | CheckDep _ | Clean | CleanInfo | CleanSo | CleanAge | Remove | Cleaned | Dead => False
    | _ => True
    end.
  Definition CInv w : Prop := (forall p, has_lock (pcs w p) = true <-> lock w = Some p) /\ lockst w /\ forall p, proc w (pcs w p).

  Lemma proc_mono w w' c : (is_so w -> is_so w') -> (info w <> None -> info w' <> None) -> proc w c -> proc w' c.
  Proof. intros H1 H2. destruct c; cbn; tauto. Qed.
  Lemma holder_ext w w' c : so w' = so w -> content w' = content w -> holder w c -> holder w' c.
  Proof. intros H1 H2. unfold holder, nothing_or_all, is_lib, is_so, info_nc. now rewrite H1, H2. Qed.
  Lemma nothing_ext w w' : so w' = so w -> content w' = content w -> nothing_or_all w -> nothing_or_all w'.
  Proof. intros H1 H2. unfold nothing_or_all, is_lib. now rewrite H1, H2. Qed.

  (** A step of a process without the lock, which leaves the files as they are *)
  Lemma outside_step p c w w' : CInv w -> has_lock (pcs w p) = false -> has_lock c = false ->
    so w' = so w -> content w' = content w -> lock w' = lock w -> present w' = present w ->
    pcs w' p = c -> (forall q, p <> q -> pcs w' q = pcs w q) -> proc w' c -> CInv w'.
  Proof.
    intros (L & S & P) H1 H2 E1 E2 E3 E4 Ep Eq Hc.
    assert (Hi : info w <> None -> info w' <> None). { unfold content in E2. destruct (info w), (info w'); cbn in E2; congruence. }
    split; [|split].
    - intro q. rewrite E3. destruct (Nat.eq_dec p q) as [<-|Hn]; [|rewrite Eq by auto; apply L]. rewrite Ep, H2. split; [discriminate|]. intro Hl. apply L in Hl. congruence.
    - unfold lockst in *. rewrite E3, E4. destruct (lock w) as [q|] eqn:El; [|eapply nothing_ext; eauto].
      assert (p <> q). { intros ->. assert (has_lock (pcs w q) = true) by now apply L. congruence. } rewrite Eq by auto. destruct S as [S1 S2]. split; auto. eapply holder_ext; eauto.
    - intro q. destruct (Nat.eq_dec p q) as [<-|Hn]; [now rewrite Ep|]. rewrite Eq by auto. apply (proc_mono w); auto. unfold is_so. now rewrite E1.
  Qed.
  (** A step of the process with the lock *)
  Lemma inside_step p c w w' : CInv w -> has_lock (pcs w p) = true -> has_lock c = true -> lock w' = Some p -> present w' = true ->
    (is_so w -> is_so w') -> (info w <> None -> info w' <> None) ->
    pcs w' p = c -> (forall q, p <> q -> pcs w' q = pcs w q) -> holder w' c -> CInv w'.
  Proof.
    intros (L & S & P) H1 H2 E3 E4 Hs Hi Ep Eq Hh. apply L in H1.
    split; [|split].
    - intro q. destruct (Nat.eq_dec p q) as [<-|Hn]; [rewrite Ep; tauto|]. rewrite Eq by auto. rewrite L, H1, E3. tauto.
    - unfold lockst. rewrite E3, Ep. auto.
    - intro q. destruct (Nat.eq_dec p q) as [<-|Hn]; [rewrite Ep; destruct c; cbn in *; try discriminate; auto|]. rewrite Eq by auto. apply (proc_mono w); auto.
  Qed.

  Lemma content_info w c : content w = Some c -> exists m, info w = Some (c, m).
  Proof. unfold content. destruct (info w) as [[c' m]|]; cbn; [|discriminate]. intro H. exists m. congruence. Qed.
  Lemma no_content w : content w = None -> info w = None.
  Proof. unfold content. destruct (info w); cbn; congruence. Qed.

  Lemma concurrent_act p w : CInv w -> CInv (act key nodeps limit p w).
  Proof.
    intro HI. pose proof HI as (L & S & P). pose proof (P p) as Hp.
    assert (O : forall q, p <> q -> pcs (act key nodeps limit p w) q = pcs w q) by (intros; now apply act_other).
    assert (Hh : has_lock (pcs w p) = true -> lock w = Some p /\ present w = true /\ holder w (pcs w p)).
    { intro H. apply L in H. split; auto. unfold lockst in S. now rewrite H in S. }
    revert O. unfold act. destruct (pcs w p) eqn:Ec; intro O; try exact HI; cbn [proc] in Hp; try contradiction.
    - (* CheckSo *) match goal with |- CInv (set_pc p ?c w) => eapply (outside_step p c) end; eauto; try (rewrite Ec; reflexivity); try apply set_pc_same; try reflexivity.
      + destruct (so w); [|destruct second]; reflexivity.
      + destruct (so w) eqn:Es; [exists p0; exact Es|]. destruct second; exact Logic.I.
    - (* CheckInfo *) match goal with |- CInv (set_pc p ?c w) => eapply (outside_step p c) end; eauto; try (rewrite Ec; reflexivity); try apply set_pc_same; try reflexivity.
      + destruct (info w) as [[[k'|] m]|]; [destruct (k' =? key p); [|destruct second]| |destruct second]; reflexivity.
      + destruct (info w) as [[[k'|] m]|] eqn:Ei; [destruct (k' =? key p); [|destruct second]| |destruct second]; try exact Logic.I; [|reflexivity].
        split; [exact Hp|]. cbn. congruence.
    - (* Touch *) destruct Hp as [Hs Hi]. destruct (info w) as [[c m]|] eqn:Ei; [|congruence].
      eapply (outside_step p Load); eauto; try (rewrite Ec; reflexivity); try apply set_pc_same; try reflexivity.
      + unfold content. cbn. now rewrite Ei.
      + split; [exact Hs|]. cbn. congruence.
    - (* Take *) destruct (lock w) as [q|] eqn:El; [exact HI|]. unfold lockst in S. rewrite El in S.
      split; [|split].
      + intro q. destruct (Nat.eq_dec p q) as [<-|Hn]; [rewrite set_pc_same; cbn; tauto|]. rewrite set_pc_other by auto. cbn. rewrite L. split; [discriminate|]. intro; congruence.
      + unfold lockst. cbn [lock set_pc set_present set_lock present]. split; auto. change (holder (set_pc p Compile (set_present true (set_lock (Some p) w))) (pcs (set_pc p Compile (set_present true (set_lock (Some p) w))) p)). rewrite set_pc_same. exact S.
      + intro q. destruct (Nat.eq_dec p q) as [<-|Hn]; [now rewrite set_pc_same|]. rewrite set_pc_other by auto. apply (proc_mono w); [intro X; exact X|intro X; exact X|exact (P q)].
    - (* Compile *) destruct Hh as (H1 & H2 & H3); [reflexivity|]. rewrite H2 in *. eapply (inside_step p (Link (dep w))); eauto; try (rewrite Ec; reflexivity); try apply set_pc_same; try reflexivity.
      + intros _. unfold is_so. cbn. eauto.
      + split; [unfold is_so; cbn; eauto|]. destruct H3 as [[_ H]|[_ H]]; [now left|now right].
    - (* Link *) destruct Hh as (H1 & H2 & H3); [reflexivity|]. destruct H3 as [(x & H3) H4]. rewrite H3 in *. eapply (inside_step p OpenInfo); eauto; try (rewrite Ec; reflexivity); try apply set_pc_same; try reflexivity.
      + intros _. unfold is_so. cbn. eauto.
      + split; [unfold is_lib; cbn; rewrite Hkey; eauto|exact H4].
    - (* OpenInfo *) destruct Hh as (H1 & H2 & H3); [reflexivity|]. rewrite H2 in *. eapply (inside_step p WriteInfo); eauto; try (rewrite Ec; reflexivity); try apply set_pc_same; try reflexivity.
      + intros _. cbn. discriminate.
      + split; [exact (proj1 H3)|reflexivity].
    - (* WriteInfo *) destruct Hh as (H1 & H2 & H3); [reflexivity|]. destruct H3 as [H3 H4]. destruct (content_info _ _ H4) as [m Hm]. rewrite Hm in *. rewrite Hkey in *.
      eapply (inside_step p Verify); eauto; try (rewrite Ec; reflexivity); try apply set_pc_same; try reflexivity.
      + intros _. cbn. discriminate.
      + split; [exact H3|reflexivity].
    - (* Verify *) destruct Hh as (H1 & H2 & H3); [reflexivity|]. destruct H3 as [H3 H4]. pose proof H3 as (d & m' & Hs). destruct (content_info _ _ H4) as [m Hm].
      assert (Hn : need_recompile key nodeps p w = false) by (unfold need_recompile; rewrite Hs, Hm, Hkey, Nat.eqb_refl; reflexivity). rewrite Hn in *.
      eapply (inside_step p (Release None)); eauto; try (rewrite Ec; reflexivity); try apply set_pc_same; try reflexivity. split; auto.
    - (* Release *) destruct Hh as (H1 & H2 & H3); [reflexivity|]. destruct e; [contradiction|]. destruct H3 as [H3 H4]. rewrite H1 in *. pose proof H3 as (d & m' & Hs). destruct (content_info _ _ H4) as [m Hm].
      split; [|split].
      + intro q. destruct (Nat.eq_dec p q) as [<-|Hn]; [rewrite set_pc_same; cbn; split; discriminate|]. rewrite set_pc_other by auto. cbn. rewrite L. split; [intro; congruence|discriminate].
      + unfold lockst. cbn. right. split; auto.
      + intro q. destruct (Nat.eq_dec p q) as [<-|Hn]; [rewrite set_pc_same; split; [unfold is_so; cbn; eauto|cbn; congruence]|]. rewrite set_pc_other by auto. apply (proc_mono w); [intro X; exact X|intro X; exact X|exact (P q)].
    - (* Load *) destruct Hp as [([l m] & Hs) Hi]. rewrite Hs in *. eapply (outside_step p (Loaded l)); eauto; try (rewrite Ec; reflexivity); try apply set_pc_same; try reflexivity.
  Qed.

  Lemma concurrent_step e w : no_crash e w /\ no_cleanup e w -> CInv w -> CInv (exec key nodeps limit e w).
  Proof.
    intros [H1 H2] HI. pose proof HI as (L & S & P). destruct e as [p|p|p|p| |d|d]; cbn [exec]; try contradiction.
    - destruct (pcs w p) eqn:Ep; try exact HI. eapply (outside_step p (CheckSo false)); eauto; try (rewrite Ep; reflexivity); try apply set_pc_same; try reflexivity. intros; now apply set_pc_other.
    - now apply concurrent_act.
    - destruct (lock w) as [q|] eqn:El; [|exact HI]. destruct (pcs w q) eqn:Eq; try exact HI. specialize (P q). rewrite Eq in P. contradiction.
    - exact HI.
    - exact HI.
  Qed.
  Lemma concurrent_inv es : history key nodeps limit (fun e w => no_crash e w /\ no_cleanup e w) es fresh -> CInv (run key nodeps limit es fresh).
  Proof.
    apply (history_inv key nodeps limit (fun e w => no_crash e w /\ no_cleanup e w) CInv); [exact concurrent_step|].
    split; [intro p; split; discriminate|]. split; [left; auto|]. intro p. exact Logic.I.
  Qed.

  Lemma concurrent_load w p : CInv w -> pcs w p = Load -> (exists d m, so w = Some (Lib k d, m)) \/ (exists x, so w = Some x /\ exists q, writes_library w q).
  Proof.
    intros (L & S & P) E. specialize (P p). rewrite E in P. destruct P as [Hs Hi].
    assert (Hc : content w <> None) by (intro H; apply Hi, no_content, H).
    unfold lockst in S. destruct (lock w) as [q|].
    - destruct S as [_ S]. unfold holder in S. destruct (pcs w q) eqn:Eq; try contradiction; try (left; exact (proj1 S)).
      + destruct S as [[_ S]|[S _]]; [congruence|left; exact S].
      + right. destruct Hs as [x Hs]. exists x. split; auto. exists q. eexists. exact Eq.
      + destruct e; [contradiction|]. left. exact (proj1 S).
    - destruct S as [[_ S]|[S _]]; [congruence|left; exact S].
  Qed.
  Lemma concurrent_incomplete w m : CInv w -> info w = Some (None, m) -> exists q, pcs w q = WriteInfo.
  Proof.
    intros (L & S & P) E. assert (Hc : content w = Some None) by (unfold content; now rewrite E). unfold lockst in S. destruct (lock w) as [q|].
    - destruct S as [_ S]. unfold holder, info_nc, nothing_or_all in S. destruct (pcs w q) eqn:Eq; try contradiction; try (rewrite Hc in S; exfalso; destruct S as [[_ S]|[_ S]]; discriminate);
        try (rewrite Hc in S; exfalso; destruct S as [_ [S|S]]; discriminate); try (rewrite Hc in S; exfalso; destruct S as [_ S]; discriminate).
      + now exists q.
      + destruct e; [contradiction|]. rewrite Hc in S. destruct S as [_ S]. discriminate.
    - unfold nothing_or_all in S. rewrite Hc in S. destruct S as [[_ S]|[_ S]]; discriminate.
  Qed.

  (** There is always a process which can go on. *)
  Lemma concurrent_progress w p : CInv w -> ended (pcs w p) = false -> exists q, pcs (act key nodeps limit q w) q <> pcs w q.
  Proof.
    intros HI He. pose proof HI as (L & S & P).
    assert (H : forall q, ended (pcs w q) = false -> (pcs w q = Take -> lock w = None) -> pcs (act key nodeps limit q w) q <> pcs w q).
    { intros q Hq Ht. pose proof (P q) as Pq. unfold act. destruct (pcs w q) eqn:Eq; cbn [ended proc] in *; try discriminate; try contradiction;
        try (rewrite (Ht eq_refl)); 
        repeat match goal with |- context [match ?x with _ => _ end] => lazymatch x with (_ =? _) => fail | _ => destruct x end end; rewrite ?set_pc_same; try discriminate;
        try (destruct second; discriminate); try (destruct (_ =? _), second; discriminate). }
    destruct (pcs w p) eqn:Ep; cbn in He; try discriminate; try (exists p; apply H; rewrite Ep; [reflexivity|discriminate]).
    destruct (lock w) as [q|] eqn:El; [|exists p; apply H; rewrite Ep; auto].
    exists q. assert (Hl : has_lock (pcs w q) = true) by now apply L. clear El. rename Hl into El. apply H; destruct (pcs w q); cbn in El; try discriminate; auto.
  Qed.
End Concurrent.
