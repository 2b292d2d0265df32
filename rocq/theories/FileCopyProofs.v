(** Proofs about the copying of files into the cache. *)
From Verif Require Import Base ListLemmas FileCopyModel FileCopySpec.

(** Nobody wrote the source since the request ([fr]), or since the info file was written. *)
Definition cur (fr : bool) (w : world) : Prop := fr = true \/ exists m, w_info w = Some (Some m) /\ (w_mtime w <= m)%Z.
Definition dst_good (w : world) : Prop := forall c, w_dst w = Some c -> c = w_src w.

Definition zeros_from (src : list byte) (off : nat) : list byte :=
  match src with [] => [] | _ => firstn off src ++ repeat 0 (length src + 1 - off) end.

Definition pc_inv (fr : bool) (w : world) : Prop :=
  match w_pc w with
  | Idle | Exists | StatSrc | RemoveDst | Raised _ => True
  | StatDst ss sm => fr = true -> sm = w_mtime w
  | LoadInfo ss sm ds => fr = true -> sm = w_mtime w
  | Compare ss sm ds known => fr = true -> sm = w_mtime w /\ (forall m, known = Some m -> (sm <= m)%Z -> dst_good w)
  | Cleanup | CheckTmp | StatMtime => w_dst w = None
  | SaveOpen m => w_dst w = None /\ (m <= w_mtime w)%Z
  | SaveWrite m => w_dst w = None /\ (m <= w_mtime w)%Z
  | StatSize => w_dst w = None /\ w_info w <> Some None
  | OpenTmp n => w_dst w = None /\ w_info w <> Some None /\ (cur fr w -> n = length (w_src w))
  | Prealloc n => w_dst w = None /\ w_info w <> Some None /\ (cur fr w -> n = length (w_src w) /\ forall t m, w_tmp w = Some (t, m) -> t = [])
  | Copying n off => w_dst w = None /\ w_info w <> Some None /\
      (cur fr w -> n = length (w_src w) /\ off <= n /\ forall t m, w_tmp w = Some (t, m) -> t = zeros_from (w_src w) off)
  | Truncate n => w_dst w = None /\ w_info w <> Some None /\
      (cur fr w -> n = length (w_src w) /\ forall t m, w_tmp w = Some (t, m) -> firstn n t = w_src w)
  | Rename => w_dst w = None /\ w_info w <> Some None /\ (cur fr w -> forall t m, w_tmp w = Some (t, m) -> t = w_src w)
  | UtimeDst | UtimeInfo | Returned => cur fr w -> dst_good w
  end.

Record inv (fr : bool) (w : world) : Prop := {
  i_old : forall m, w_info w = Some (Some m) -> (m <= w_mtime w)%Z;
  i_good : forall m, w_info w = Some (Some m) -> (w_mtime w <= m)%Z -> dst_good w;
  i_info : w_dst w <> None -> w_info w <> Some None;
  i_pc : pc_inv fr w }.

Definition idle (c : pc) : bool := match c with Idle | Returned | Raised _ => true | _ => false end.
Definition upd (fr : bool) (e : event) (w : world) : bool := match e with Request => idle (w_pc w) || fr | WriteSrc _ _ => false | _ => fr end.

Lemma zeros_from_0 src : src <> [] -> zeros_from src 0 = repeat 0 (length src + 1).
Proof. intros H. unfold zeros_from. destruct src; [congruence|]. rewrite Nat.sub_0_r. reflexivity. Qed.

Lemma zeros_from_write src off k : off <= length src -> firstn (S k) (skipn off src) <> [] ->
  write_at off (firstn (S k) (skipn off src)) (zeros_from src off) = zeros_from src (off + length (firstn (S k) (skipn off src))) /\
  off + length (firstn (S k) (skipn off src)) <= length src.
Proof.
  intros Hle Hne. set (ch := firstn (S k) (skipn off src)) in *.
  assert (Hl : off + length ch <= length src).
  { unfold ch. rewrite firstn_length, skipn_length. lia. }
  split; [|exact Hl].
  assert (Hsrc : src <> []). { intros ->. apply Hne. unfold ch. rewrite skipn_nil. reflexivity. }
  assert (Hz : forall o, zeros_from src o = firstn o src ++ repeat 0 (length src + 1 - o)) by (intros o; unfold zeros_from; destruct src; [congruence|reflexivity]).
  rewrite !Hz. unfold write_at.
  assert (Hf : length (firstn off src) = off) by (rewrite firstn_length; lia).
  rewrite firstn_app, Hf, Nat.sub_diag, firstn_O, app_nil_r, firstn_firstn, Nat.min_id.
  rewrite skipn_app, Hf. rewrite (skipn_all2 (firstn off src)) by lia. cbn [app].
  replace (off + length ch - off) with (length ch) by lia.
  rewrite app_assoc. f_equal.
  - assert (Hch : ch = firstn (length ch) (skipn off src)).
    { unfold ch. rewrite firstn_length, <- firstn_firstn. rewrite (firstn_all2 (n := length (skipn off src))) by lia. reflexivity. }
    rewrite Hch at 1. rewrite <- (firstn_skipn off src) at 3. rewrite firstn_app, Hf.
    rewrite (firstn_all2 (firstn off src)) by lia. f_equal. f_equal. lia.
  - replace (length src + 1 - off) with (length ch + (length src + 1 - (off + length ch))) by lia.
    rewrite repeat_app, skipn_app, repeat_length, Nat.sub_diag. rewrite skipn_all2 by (rewrite repeat_length; lia). reflexivity.
Qed.

Lemma zeros_from_end src off : off <= length src -> skipn off src = [] -> firstn (length src) (zeros_from src off) = src.
Proof.
  intros Hle Hs. assert (Ho : off = length src).
  { apply (f_equal (@length _)) in Hs. rewrite skipn_length in Hs. cbn in Hs. lia. }
  subst off. unfold zeros_from. destruct src as [|x s]; [reflexivity|]. rewrite firstn_all.
  rewrite firstn_app, firstn_all, Nat.sub_diag, firstn_O, app_nil_r. reflexivity.
Qed.

Ltac break_world w := destruct w as [src mt dst info tmp now c].

Lemma inv_act fr k w : inv fr w -> inv fr (act k w).
Proof.
  intros [H1 H2 H3 H4]. break_world w. unfold act, pc_inv, cur, dst_good in *.
  destruct c; cbn [w_pc w_src w_mtime w_dst w_info w_tmp w_now set_pc set_dst set_info set_tmp] in *.
  - split; [exact H1|exact H2|exact H3|exact I].
  - destruct dst; (split; [exact H1|exact H2|exact H3|]); cbn; auto.
  - split; [exact H1|exact H2|exact H3|]. cbn. auto.
  - destruct dst; (split; [exact H1|exact H2|exact H3|]); cbn; auto.
  - destruct info as [[m|]|]; (split; [exact H1|exact H2|exact H3|]); cbn; auto.
    + intros Hf. split; [auto|]. intros m' Em Hle. injection Em as <-. specialize (H4 Hf). subst smtime. exact (H2 m eq_refl Hle).
    + intros Hf. split; [auto|discriminate].
  - destruct (negb (ssize =? dsize)) eqn:Es; cbn [orb].
    { split; [exact H1|exact H2|exact H3|exact I]. }
    destruct known as [m|]; [|split; [exact H1|exact H2|exact H3|exact I]].
    destruct (Z.ltb_spec m smtime) as [Hlt|Hge]; (split; [exact H1|exact H2|exact H3|]); [exact I|].
    unfold pc_inv; cbn. intros [Hf|(m'&Em&Hle)]; [|exact (H2 m' Em Hle)]. destruct (H4 Hf) as [-> Hg]. exact (Hg m eq_refl Hge).
  - destruct dst as [d|]; (split; cbn; auto). discriminate.
  - split; [exact H1|exact H2|exact H3|]. exact H4.
  - destruct tmp as [[t tm]|]; [destruct (tmp_min_age <? now - tm)%Z|]; (split; [exact H1|exact H2|exact H3|]); cbn; auto.
  - split; [exact H1|exact H2|exact H3|]. cbn. split; [exact H4|lia].
  - destruct H4 as [Hd Hm]. split; cbn; [discriminate|discriminate|intros Hx; contradiction|auto].
  - destruct H4 as [Hd Hm]. destruct info as [i|]; (split; cbn; auto).
    + intros m' E. injection E as <-. exact Hm.
    + intros m' _ _ c Hc. cbn in Hc. congruence.
    + split; [exact Hd|discriminate].
    + split; [exact Hd|discriminate].
  - split; [exact H1|exact H2|exact H3|]. cbn. destruct H4 as [Hd Hm]. auto.
  - destruct H4 as (Hd&Hi&Hn). split; [exact H1|exact H2|exact H3|]. unfold pc_inv, cur in *; cbn in *. split; [exact Hd|]. split; [exact Hi|]. intros Hc. split; [auto|].
    intros t m E. injection E as <- _. reflexivity.
  - destruct H4 as (Hd&Hi&Hn).
    destruct tmp as [[t tm]|]; [destruct (Nat.ltb_spec 0 n) as [Hp|Hp]|]; (split; [exact H1|exact H2|exact H3|]); unfold pc_inv, cur in *; cbn in *;
      (split; [exact Hd|]; split; [exact Hi|]; intros Hc; destruct (Hn Hc) as [En Et]; subst n; split; [reflexivity|]; split; [lia|]).
    + intros t' m' E. injection E as <- _. rewrite zeros_from_0; [reflexivity|]. intros ->. cbn in Hp. lia.
    + intros t' m' E. rewrite (Et t' m' E). destruct src; [reflexivity|cbn in Hp; lia].
    + discriminate.
  - destruct H4 as (Hd&Hi&Hn).
    destruct (firstn (S k) (skipn off src)) as [|b ch] eqn:Ech.
    + assert (Hs : skipn off src = []) by (destruct (skipn off src); [reflexivity|discriminate]).
      split; [exact H1|exact H2|exact H3|]. unfold pc_inv, cur in *; cbn in *. split; [exact Hd|]. split; [exact Hi|]. intros Hc.
      destruct (Hn Hc) as (En&Ho&Et). split; [exact En|]. intros t m E. rewrite (Et t m E). subst n. now apply zeros_from_end.
    + rewrite <- Ech.
      assert (Hne : firstn (S k) (skipn off src) <> []) by (rewrite Ech; discriminate).
      destruct tmp as [[t tm]|]; (split; [exact H1|exact H2|exact H3|]); unfold pc_inv, cur in *; cbn -[firstn] in *; (split; [exact Hd|]; split; [exact Hi|]; intros Hc;
        destruct (Hn Hc) as (En&Ho&Et); subst n; destruct (zeros_from_write src off k Ho Hne) as [Hw Hl]; split; [reflexivity|]; split; [exact Hl|]).
      * intros t' m' E. injection E as <- _. rewrite (Et t tm eq_refl). exact Hw.
      * discriminate.
  - destruct H4 as (Hd&Hi&Hn).
    destruct tmp as [[t tm]|]; (split; [exact H1|exact H2|exact H3|]); unfold pc_inv, cur in *; cbn in *; (split; [exact Hd|]; split; [exact Hi|]; intros Hc; destruct (Hn Hc) as [En Et]).
    + intros t' m' E. injection E as <- _. unfold truncate. rewrite (Et t tm eq_refl).
      replace (n - length t) with 0; [cbn; apply app_nil_r|]. specialize (Et t tm eq_refl). apply (f_equal (@length _)) in Et. rewrite firstn_length in Et. lia.
    + discriminate.
  - destruct H4 as (Hd&Hi&Hn). destruct tmp as [[t tm]|]; [|split; [exact H1|exact H2|exact H3|exact I]].
    split; unfold pc_inv, cur, dst_good in *; cbn in *.
    + exact H1.
    + intros m Em Hle c E. injection E as <-. eapply Hn; eauto.
    + intros _. exact Hi.
    + intros Hc c E. injection E as <-. eapply Hn; eauto.
  - destruct dst; (split; [exact H1|exact H2|exact H3|]); [exact H4|exact I].
  - destruct info; (split; [exact H1|exact H2|exact H3|]); [exact H4|exact I].
  - split; [exact H1|exact H2|exact H3|exact H4].
  - split; [exact H1|exact H2|exact H3|exact H4].
Qed.


Lemma inv_less fr w w' : w_pc w' = w_pc w -> w_src w' = w_src w -> w_mtime w' = w_mtime w ->
  w_dst w' = w_dst w \/ w_dst w' = None -> w_info w' = w_info w \/ w_info w' = None -> w_tmp w' = w_tmp w \/ w_tmp w' = None ->
  inv fr w -> inv fr w'.
Proof.
  break_world w. destruct w' as [src' mt' dst' info' tmp' now' c']. cbn. intros -> -> -> Hd Hi Ht [H1 H2 H3 H4].
  assert (Hg : dst_good (mk_world src mt dst info tmp now c) -> dst_good (mk_world src mt dst' info' tmp' now' c)).
  { unfold dst_good. cbn. destruct Hd as [-> | ->]; [auto|discriminate]. }
  assert (Hc : cur fr (mk_world src mt dst' info' tmp' now' c) -> cur fr (mk_world src mt dst info tmp now c)).
  { unfold cur. cbn. destruct Hi as [-> | ->]; [auto|]. intros [Hx|(m&?&_)]; [auto|discriminate]. }
  assert (Hn : dst = None -> dst' = None) by (destruct Hd as [-> | ->]; auto).
  assert (Hin : info <> Some None -> info' <> Some None) by (destruct Hi as [-> | ->]; [auto|discriminate]).
  assert (Htm : forall t m, tmp' = Some (t, m) -> tmp = Some (t, m)) by (destruct Ht as [-> | ->]; [auto|discriminate]).
  split; cbn in *.
  - destruct Hi as [-> | ->]; [exact H1|discriminate].
  - destruct Hi as [-> | ->]; [|discriminate]. intros m Em Hle. apply Hg. eauto.
  - destruct Hd as [-> | ->]; [|congruence]. intros Hx. apply Hin. auto.
  - unfold pc_inv in *. destruct c; cbn in *; intuition eauto.
Qed.
Lemma inv_set_pc fr c w : pc_inv fr (set_pc c w) -> inv fr w -> inv fr (set_pc c w).
Proof. intros Hp [H1 H2 H3 H4]. split; [exact H1|exact H2|exact H3|exact Hp]. Qed.

Lemma inv_exec fr e w : inv fr w -> inv (upd fr e w) (exec e w).
Proof.
  intros H. destruct e; cbn [exec upd].
  - destruct (w_pc w) eqn:E; cbn [idle orb]; try exact H; (destruct H as [H1 H2 H3 H4]; split; [exact H1|exact H2|exact H3|exact I]).
  - now apply inv_act.
  - destruct (w_pc w) eqn:E; try exact H; (apply inv_set_pc; [exact I|exact H]).
  - apply inv_set_pc; [exact I|exact H].
  - destruct H as [H1 H2 H3 H4]. destruct w as [src mt dst info tmp now c0]. cbn in *.
    assert (Hno : forall m, info = Some (Some m) -> (mt + Z.pos d <= m)%Z -> False) by (intros m Em Hle; specialize (H1 m Em); lia).
    split; cbn.
    + intros m Em. specialize (H1 m Em). lia.
    + intros m Em Hle. exfalso. eauto.
    + exact H3.
    + assert (Hc : ~ cur false (mk_world c (mt + Z.pos d) dst info tmp now c0)) by (intros [Hx|(m&Em&Hle)]; [discriminate|eauto]).
      unfold pc_inv in *. destruct c0; cbn in *; intuition (try discriminate); lia.
  - eapply inv_less; try eassumption; try reflexivity; auto.
  - eapply inv_less; try eassumption; try reflexivity; auto.
  - eapply inv_less; try eassumption; try reflexivity; auto.
  - eapply inv_less; try eassumption; try reflexivity; auto.
Qed.

Fixpoint upd_all (fr : bool) (es : list event) (w : world) : bool :=
  match es with [] => fr | e :: es' => upd_all (upd fr e w) es' (exec e w) end.
Lemma inv_run es : forall fr w, inv fr w -> inv (upd_all fr es w) (run es w).
Proof. induction es as [|e es IH]; intros fr w H; [exact H|]. cbn. apply IH. now apply inv_exec. Qed.
Lemma upd_all_true es : forall w, source_unchanged es -> upd_all true es w = true.
Proof.
  induction es as [|e es IH]; intros w H; [reflexivity|]. cbn. replace (upd true e w) with true.
  - apply IH. intros c d Hin. apply (H c d). now right.
  - destruct e; try reflexivity; [cbn; now rewrite orb_true_r|]. exfalso. eapply H. now left.
Qed.
Lemma inv_start src mt now : inv false (start src mt now).
Proof. split; cbn; try discriminate; try exact I; congruence. Qed.
Lemma run_app es es' w : run (es ++ es') w = run es' (run es w).
Proof. apply fold_left_app. Qed.

Lemma src_run es : forall w, source_unchanged es -> w_src (run es w) = w_src w /\ w_mtime (run es w) = w_mtime w.
Proof.
  induction es as [|e es IH]; intros w H; [auto|]. cbn. destruct (IH (exec e w)) as [E1 E2]; [intros c d Hin; apply (H c d); now right|].
  unfold run in *. rewrite E1, E2. destruct e; cbn; auto; try (destruct (w_pc w); auto; fail).
  - unfold act. destruct (w_pc w); auto; try (destruct (w_dst w); auto; fail); try (destruct (w_info w); auto; fail).
    + destruct (w_tmp w); [destruct (0 <? n)|]; auto.
    + destruct (firstn (S k) (skipn off (w_src w))); [auto|]. destruct (w_tmp w) as [[? ?]|]; auto.
    + destruct (w_tmp w) as [[? ?]|]; auto.
    + destruct (w_tmp w) as [[? ?]|]; auto.
  - exfalso. eapply H. now left.
Qed.

(** A request that returned gives the content of the source, if that was not written during the request. *)
Lemma request_good pre mid src mt now :
  let w := run pre (start src mt now) in let w' := run (pre ++ Request :: mid) (start src mt now) in
  idle (w_pc w) = true -> source_unchanged mid -> w_pc w' = Returned -> dst_good w'.
Proof.
  cbv zeta. intros Hi Hs. rewrite run_app. set (w := run pre _) in *.
  assert (H0 : inv (upd_all false pre (start src mt now)) w) by apply inv_run, inv_start.
  apply (inv_exec _ Request) in H0. cbn [upd] in H0. rewrite Hi in H0. cbn [orb] in H0.
  apply (inv_run mid) in H0. rewrite upd_all_true in H0 by exact Hs. change (run (Request :: mid) w) with (run mid (exec Request w)).
  intros Hp. destruct H0 as [_ _ _ H4]. unfold pc_inv in H4. rewrite Hp in H4. apply H4. now left.
Qed.

(** If the source is never written then the cached file is never anything else. *)
Lemma never_good es src mt now : source_unchanged es -> dst_good (run es (start src mt now)).
Proof.
  intros Hs. enough (H : forall es w, source_unchanged es -> inv true w -> dst_good w -> dst_good (run es w)).
  { apply H; [exact Hs| |intros c; discriminate]. split; cbn; try discriminate; try exact I; congruence. }
  clear. induction es as [|e es IH]; intros w Hs Hi Hg; [exact Hg|]. cbn.
  assert (Hs' : source_unchanged es) by (intros c d Hin; apply (Hs c d); now right).
  assert (Hi' : inv true (exec e w)).
  { replace true with (upd true e w); [now apply inv_exec|]. destruct e; cbn; auto; [apply orb_true_r|exfalso; eapply Hs; now left]. }
  apply IH; [exact Hs'|exact Hi'|].
  destruct e; cbn [exec]; try exact Hg; try (destruct (w_pc w); exact Hg); try (intros c; discriminate).
  - cbn [exec] in Hi'. destruct Hi as [H1 H2 H3 H4]. unfold act, pc_inv in *. destruct (w_pc w) eqn:E; try exact Hg.
    + destruct (w_dst w) eqn:Ed; [intros c; discriminate|exact Hg].
    + destruct (w_info w); exact Hg.
    + destruct (w_tmp w); [destruct (0 <? n)|]; exact Hg.
    + destruct (firstn (S k) (skipn off (w_src w))); [exact Hg|]. destruct (w_tmp w) as [[? ?]|]; exact Hg.
    + destruct (w_tmp w) as [[? ?]|]; exact Hg.
    + destruct (w_tmp w) as [[t m]|] eqn:Et; [|exact Hg]. intros c. cbn. intros Ec. injection Ec as <-. destruct H4 as (_&_&H4). eapply H4; [now left|reflexivity].
  - exfalso. eapply Hs. now left.
Qed.

(** An old request alone succeeds. *)
Definition tmp_ok (w : world) : Prop := forall t m, w_tmp w = Some (t, m) -> (tmp_min_age < w_now w - m)%Z.
Definition ready (w : world) : Prop :=
  match w_pc w with
  | Exists => tmp_ok w
  | StatSrc => w_dst w <> None /\ tmp_ok w
  | StatDst _ _ => w_dst w <> None /\ tmp_ok w
  | LoadInfo _ _ _ => w_dst w <> None /\ tmp_ok w
  | Compare _ _ _ known => w_dst w <> None /\ tmp_ok w /\ (known <> None -> w_info w <> None)
  | RemoveDst => w_dst w <> None /\ tmp_ok w
  | Cleanup | CheckTmp => tmp_ok w
  | StatMtime | SaveOpen _ => True
  | SaveWrite _ | StatSize | OpenTmp _ => w_info w <> None
  | Prealloc _ | Truncate _ | Rename => w_info w <> None /\ w_tmp w <> None
  | Copying n off => w_info w <> None /\ w_tmp w <> None
  | UtimeDst => w_dst w <> None /\ w_info w <> None
  | UtimeInfo => w_dst w <> None /\ w_info w <> None
  | Returned => w_dst w <> None
  | Idle | Raised _ => False
  end.
Definition measure (w : world) : nat :=
  let n := length (w_src w) in
  match w_pc w with
  | Exists => 20 + n | StatSrc => 19 + n | StatDst _ _ => 18 + n | LoadInfo _ _ _ => 17 + n | Compare _ _ _ _ => 16 + n | RemoveDst => 15 + n
  | Cleanup => 14 + n | CheckTmp => 13 + n | StatMtime => 12 + n | SaveOpen _ => 11 + n | SaveWrite _ => 10 + n | StatSize => 9 + n
  | OpenTmp _ => 8 + n | Prealloc _ => 7 + n | Copying _ off => 6 + (n - off) | Truncate _ => 4 | Rename => 3 | UtimeDst => 2 | UtimeInfo => 1
  | Returned | Idle | Raised _ => 0
  end.
Lemma ready_act k w : inv true w -> ready w -> ready (act k w) /\ (measure (act k w) <= measure w - 1).
Proof.
  intros [H1 H2 H3 H4] Hr. break_world w. unfold ready, act, measure, pc_inv in *.
  destruct c; cbn [w_pc w_src w_mtime w_dst w_info w_tmp w_now set_pc set_dst set_info set_tmp] in *; try contradiction.
  - destruct dst; cbn; repeat split; auto; try discriminate; lia.
  - cbn. repeat split; try apply Hr; lia.
  - destruct dst; cbn; repeat split; try apply Hr; try lia. destruct Hr; congruence.
  - destruct Hr as [Hd Ht]. destruct info as [[m|]|]; cbn; repeat split; auto; try lia; try discriminate.
    + exfalso. now apply (H3 Hd).
  - destruct Hr as (Hd&Ht&Hk). destruct (negb (ssize =? dsize)); cbn [orb]; [cbn; repeat split; auto; lia|].
    destruct known as [m|]; [|cbn; repeat split; auto; lia]. destruct (m <? smtime)%Z; cbn; repeat split; auto; try lia. apply Hk. discriminate.
  - destruct Hr as [Hd Ht]. destruct dst; [|congruence]. cbn. split; [exact Ht|lia].
  - cbn. split; [exact Hr|lia].
  - destruct tmp as [[t tm]|]; [|cbn; split; [exact I|lia]]. specialize (Hr t tm eq_refl). cbn in Hr. destruct (Z.ltb_spec tmp_min_age (now - tm)); [|lia]. cbn. split; [exact I|lia].
  - cbn. split; [exact I|lia].
  - cbn. split; [discriminate|lia].
  - destruct info; [|congruence]. cbn. split; [discriminate|lia].
  - cbn. split; [exact Hr|lia].
  - cbn. split; [split; [exact Hr|discriminate]|lia].
  - destruct Hr as [Hi Ht]. destruct tmp as [[t tm]|]; [|congruence]. destruct (0 <? n); cbn; (split; [split; [exact Hi|discriminate]|lia]).
  - destruct Hr as [Hi Ht]. destruct tmp as [[t tm]|]; [|congruence].
    destruct (firstn (S k) (skipn off src)) as [|b ch] eqn:E; cbn -[firstn].
    + repeat split; [exact Hi|discriminate|lia].
    + split; [split; [exact Hi|discriminate]|].
      destruct H4 as (_&_&H4). destruct (H4 (or_introl eq_refl)) as (En&Ho&_).
      destruct (zeros_from_write src off k ltac:(cbn in *; lia) ltac:(rewrite E; discriminate)) as [_ Hl]. rewrite E in Hl. cbn in Hl. lia.
  - destruct Hr as [Hi Ht]. destruct tmp as [[t tm]|]; [|congruence]. cbn. repeat split; [exact Hi|discriminate|lia].
  - destruct Hr as [Hi Ht]. destruct tmp as [[t tm]|]; [|congruence]. cbn. repeat split; [discriminate|exact Hi|lia].
  - destruct Hr as [Hd Hi]. destruct dst; [|congruence]. cbn. repeat split; auto; lia.
  - destruct Hr as [Hd Hi]. destruct info; [|congruence]. cbn. repeat split; auto; lia.
  - cbn. split; [exact Hr|lia].
Qed.
Lemma ready_run es : forall w, alone es -> inv true w -> ready w -> ready (run es w) /\ inv true (run es w) /\ measure (run es w) <= measure w - length es.
Proof.
  induction es as [|e es IH]; intros w Ha Hi Hr; [split; [exact Hr|]; split; [exact Hi|]; cbn; lia|].
  destruct (Ha e (or_introl eq_refl)) as (k&->). cbn [run fold_left exec length].
  destruct (ready_act k w Hi Hr) as [Hr' Hm]. assert (Ha' : alone es) by (intros e He; apply Ha; now right).
  destruct (IH (act k w) Ha' (inv_act _ k w Hi) Hr') as (R&I'&M). unfold run in *. split; [exact R|]. split; [exact I'|]. lia.
Qed.
Lemma measure_0 w : ready w -> measure w = 0 -> w_pc w = Returned.
Proof. unfold ready, measure. destruct (w_pc w); cbn; intros; try lia; try contradiction. reflexivity. Qed.

Lemma recovers pre es src mt now : let w := run pre (start src mt now) in
  idle (w_pc w) = true -> tmp_ok w -> alone es -> 20 + length (w_src w) <= length es ->
  w_pc (run (Request :: es) w) = Returned /\ w_dst (run (Request :: es) w) = Some (w_src w).
Proof.
  cbv zeta. set (w := run pre _). intros Hi Ht Ha Hl.
  assert (H0 : inv (upd_all false pre (start src mt now)) w) by apply inv_run, inv_start.
  apply (inv_exec _ Request) in H0. cbn [upd] in H0. rewrite Hi in H0. cbn [orb] in H0.
  change (run (Request :: es) w) with (run es (exec Request w)).
  assert (Ex : exec Request w = set_pc Exists w) by (cbn; destruct (w_pc w); try discriminate; reflexivity).
  rewrite Ex in *. destruct (ready_run es (set_pc Exists w) Ha H0 Ht) as (R&[I1 I2 I3 I4]&M).
  assert (Hp : w_pc (run es (set_pc Exists w)) = Returned) by (apply measure_0; [exact R|]; change (measure (set_pc Exists w)) with (20 + length (w_src w)) in M; lia).
  split; [exact Hp|]. unfold ready in R. unfold pc_inv in I4. rewrite Hp in R, I4.
  destruct (w_dst (run es (set_pc Exists w))) as [c|] eqn:Ed; [|congruence]. f_equal. rewrite (I4 (or_introl eq_refl) c Ed).
  apply (src_run es (set_pc Exists w)). intros c' d Hin. destruct (Ha _ Hin) as (k&E). discriminate.
Qed.

Lemma tries_last n results : forall i, get_file_tries n results i true <> Ok tt.
Proof. induction n as [|n IH]; intros i; cbn; [discriminate|]. destruct (results i) as [[|e]|]; [apply IH|discriminate|discriminate]. Qed.

Lemma tries_other n results i e : forall t b, t <= i < t + n -> (forall j, t <= j < i -> results j = Some ENOSPC) -> results i = Some (Other e) -> get_file_tries n results t b = Err e.
Proof.
  induction n as [|n IH]; intros t b Hi Hj He; [lia|]. cbn [get_file_tries]. destruct (Nat.eq_dec t i) as [->|Hne]; [now rewrite He|]. rewrite (Hj t) by lia. apply IH; [lia| |exact He]. intros j Hj1. apply Hj. lia.
Qed.
Lemma tries_full n results : forall t, (forall j, t <= j < t + n -> results j = Some ENOSPC) -> get_file_tries n results t true = Err OSError.
Proof. induction n as [|n IH]; intros t H; [reflexivity|]. cbn [get_file_tries]. rewrite (H t) by lia. apply IH. intros j Hj. apply H. lia. Qed.
