From Coq Require Import QArith Qround Sorted.
From Verif Require Import Base ListLemmas PySort PySortProofs CleanupModel CleanupSpec.
Local Open Scope Z_scope.

Lemma need_le_want o need total : (1 <= o_multiplier o)%Q -> 0 <= need -> need <= want_free o need total.
Proof.
  intros Hm Hn. unfold want_free. etransitivity; [|apply Z.le_max_l].
  rewrite <- (Qfloor_Z need) at 1. apply Qfloor_resp_le.
  rewrite <- (Qmult_1_l (inject_Z need)) at 1. apply Qmult_le_compat_r; [exact Hm|]. change 0%Q with (inject_Z 0). rewrite <- Zle_Qle. exact Hn.
Qed.
Lemma sort_entries_perm fs : Permutation (sort_entries fs) fs.
Proof. unfold sort_entries. rewrite !stable_sort_perm. reflexivity. Qed.
Lemma sort_entries_sorted fs : StronglySorted (fun a b => f_mtime a <= f_mtime b) (sort_entries fs).
Proof. apply stable_sort_sorted. Qed.

Section L.
  Context (o : opts) (now need want : Z) (removable : entry -> bool).
  Notation loop := (cleanup_loop o now need want removable).

  Lemma freed_cons f b l : freed ((f, b) :: l) = (if b then f_size f else 0) + freed l.
  Proof. reflexivity. Qed.

  Definition kept_ok (free' : Z) (e : ending) (kept : list entry) : Prop :=
    (forall f, In f kept -> age now f <= o_always o) /\
    (e = CannotFree \/ free' < need -> (free' < need) /\ forall f, In f kept -> age now f <= o_used o) /\
    (e = Finished -> free' < want -> forall f, In f kept -> age now f <= o_wanted o).
  Definition removed_ok (free : Z) (removed : list (entry * bool)) : Prop :=
    forall pre f b post, removed = pre ++ (f, b) :: post -> b = removable f /\
      (o_always o < age now f \/ (o_used o < age now f /\ free + freed pre < need) \/ (o_wanted o < age now f /\ free + freed pre < want)).

  Lemma removed_ok_cons free f l : 
    (o_always o < age now f \/ (o_used o < age now f /\ free < need) \/ (o_wanted o < age now f /\ free < want)) ->
    removed_ok (if removable f then free + f_size f else free) l -> removed_ok free ((f, removable f) :: l).
  Proof.
    intros Hf Hl pre g b post E. destruct pre as [|[g' b'] pre]; cbn [app] in E.
    - injection E as <- <- <-. split; [reflexivity|]. cbn. rewrite Z.add_0_r. exact Hf.
    - injection E as <- <- ->. destruct (Hl pre g b post eq_refl) as [-> H]. split; [reflexivity|]. rewrite freed_cons.
      destruct (removable f); [rewrite Z.add_assoc; exact H|rewrite Z.add_0_l; exact H].
  Qed.

  (** Everything about the loop at once. *)
  Lemma loop_spec fs : forall reached free removed free' e, StronglySorted (fun a b => f_mtime a <= f_mtime b) fs -> need <= want ->
    (reached = true -> forall f, In f fs -> age now f <= o_always o) ->
    loop fs reached free = (removed, free', e) ->
    free' = free + freed removed /\ (exists kept, fs = map fst removed ++ kept /\ kept_ok free' e kept) /\ removed_ok free removed.
  Proof.
    induction fs as [|f fs IH]; intros reached free removed free' e Hs Hw Hre H.
    - cbn in H. injection H as <- <- <-. split; [cbn; lia|]. split.
      + exists []. split; [reflexivity|]. split; [intros f []|]. split; [|intros _ _ f []]. intros [|H]; [discriminate|]. split; [exact H|intros f []].
      + intros pre f b post E. destruct pre; discriminate.
    - apply StronglySorted_inv in Hs. destruct Hs as [Hs Hf]. rewrite Forall_forall in Hf.
      assert (Hyoung : forall x bound, age now f <= bound -> In x (f :: fs) -> age now x <= bound).
      { intros x bound Hb [<-|Hx]; [exact Hb|]. specialize (Hf x Hx). unfold age in *. lia. }
      assert (Hyoung' : forall x bound, age now f <= bound -> In x fs -> age now x <= bound) by (intros x b Hb Hx; apply Hyoung; [exact Hb|now right]).
      cbn [cleanup_loop] in H. change (now - f_mtime f) with (age now f) in H.
      set (fr := if removable f then free + f_size f else free) in *.
      assert (Hfr : free + (if removable f then f_size f else 0) = fr) by (unfold fr; destruct (removable f); lia).
      destruct (Z.ltb_spec (o_always o) (age now f)) as [Ha|Ha]; cbn [negb andb orb] in H.
      + (* very old *)
        destruct reached; [specialize (Hre eq_refl f (or_introl eq_refl)); lia|]. cbn [andb] in H.
        destruct (loop fs false fr) as [[rm fr'] e'] eqn:El. injection H as <- <- <-.
        destruct (IH false fr rm fr' e' Hs Hw ltac:(discriminate) El) as (F&(kept&->&K)&R).
        split; [rewrite freed_cons; lia|]. split; [exists kept; split; [reflexivity|exact K]|]. apply removed_ok_cons; [auto|exact R].
      + destruct (Z.ltb_spec free need) as [Hn|Hn]; cbn [negb andb orb] in H.
        * destruct (Z.ltb_spec (o_used o) (age now f)) as [Hu|Hu]; cbn [negb] in H.
          -- destruct (Z.leb_spec want fr) as [Hx|Hx].
             ++ injection H as <- <- <-. split; [cbn; lia|]. split.
                ** exists fs. split; [reflexivity|]. split; [intros x Hx'; eapply Hyoung'; eauto|]. split; [intros [|]; [discriminate|lia]|intros; lia].
                ** apply removed_ok_cons; [auto|]. intros pre g b post E. destruct pre; discriminate.
             ++ destruct (loop fs true fr) as [[rm fr'] e'] eqn:El. injection H as <- <- <-.
                destruct (IH true fr rm fr' e' Hs Hw ltac:(intros _ x Hx'; eapply Hyoung'; eauto) El) as (F&(kept&->&K)&R).
                split; [rewrite freed_cons; lia|]. split; [exists kept; split; [reflexivity|exact K]|]. apply removed_ok_cons; [auto|exact R].
          -- injection H as <- <- <-. split; [cbn; lia|]. split.
             ++ exists (f :: fs). split; [reflexivity|]. split; [intros x Hx; eapply Hyoung; eauto|]. split; [|discriminate]. intros _. split; [exact Hn|intros x Hx; eapply Hyoung; eauto].
             ++ intros pre g b post E. destruct pre; discriminate.
        * destruct (Z.ltb_spec free want) as [Hwf|Hwf]; cbn [negb andb orb] in H.
          -- destruct (Z.ltb_spec (o_wanted o) (age now f)) as [Hu|Hu]; cbn [negb] in H.
             ++ destruct (Z.leb_spec want fr) as [Hx|Hx].
                ** injection H as <- <- <-. split; [cbn; lia|]. split.
                   --- exists fs. split; [reflexivity|]. split; [intros x Hx'; eapply Hyoung'; eauto|]. split; [intros [|]; [discriminate|lia]|intros; lia].
                   --- apply removed_ok_cons; [auto|]. intros pre g b post E. destruct pre; discriminate.
                ** destruct (loop fs true fr) as [[rm fr'] e'] eqn:El. injection H as <- <- <-.
                   destruct (IH true fr rm fr' e' Hs Hw ltac:(intros _ x Hx'; eapply Hyoung'; eauto) El) as (F&(kept&->&K)&R).
                   split; [rewrite freed_cons; lia|]. split; [exists kept; split; [reflexivity|exact K]|]. apply removed_ok_cons; [auto|exact R].
             ++ injection H as <- <- <-. split; [cbn; lia|]. split.
                ** exists (f :: fs). split; [reflexivity|]. split; [intros x Hx; eapply Hyoung; eauto|]. split; [intros [|]; [discriminate|lia]|]. intros _ _ x Hx; eapply Hyoung; eauto.
                ** intros pre g b post E. destruct pre; discriminate.
          -- destruct (Z.leb_spec want free) as [Hx|Hx]; [|lia]. injection H as <- <- <-. split; [cbn; lia|]. split.
             ++ exists (f :: fs). split; [reflexivity|]. split; [intros x Hx'; eapply Hyoung; eauto|]. split; [intros [|]; [discriminate|lia]|intros; lia].
             ++ intros pre g b post E. destruct pre; discriminate.
  Qed.
End L.

(** The whole cleanup. *)
Lemma cleanup_spec o tm now last total free need removable fs removed r :
  (1 <= o_multiplier o)%Q -> 0 <= need -> cleanup o tm now last total free need removable fs = (removed, r) ->
  (removed = [] /\ r = Ok free /\ want_free o need total <= free) \/
  ((exists kept, sort_entries fs = map fst removed ++ kept /\
      (forall f, In f kept -> age now f <= o_always o) /\
      (is_ok r = false -> free + freed removed < need /\ forall f, In f kept -> age now f <= o_used o) /\
      (is_ok r = true -> free + freed removed < want_free o need total -> forall f, In f kept -> age now f <= o_wanted o)) /\
   removed_ok o now need (want_free o need total) removable free removed /\
   (forall x, r = Ok x -> x = free + freed removed /\ need <= x)).
Proof.
  intros Hm Hn H. unfold cleanup in H. pose proof (need_le_want o need total Hm Hn) as Hw. set (want := want_free o need total) in *.
  destruct ((want <=? free) && _) eqn:E.
  - injection H as <- <-. apply andb_true_iff in E. destruct E as [E _]. apply Z.leb_le in E. left. auto.
  - right. destruct (cleanup_loop _ _ _ _ _ _ _ _) as [[rm fr] e] eqn:El.
    apply loop_spec in El; [|apply sort_entries_sorted|exact Hw|discriminate]. destruct El as (F&(kept&Es&K1&K2&K3)&R).
    destruct e; [destruct (Z.ltb_spec fr need) as [Hlt|Hge]|]; injection H as <- <-.
    + split; [|split; [exact R|discriminate]]. exists kept. split; [exact Es|]. split; [exact K1|]. split; [|discriminate]. intros _. rewrite <- F. apply K2. now right.
    + split; [|split; [exact R|intros x Hx; apply Ok_inj in Hx; subst x; split; [exact F|exact Hge]]]. exists kept. split; [exact Es|]. split; [exact K1|].
      split; [discriminate|]. intros _. rewrite <- F. apply K3. reflexivity.
    + split; [|split; [exact R|discriminate]]. exists kept. split; [exact Es|]. split; [exact K1|]. split; [|discriminate]. intros _. rewrite <- F. apply K2. now left.
Qed.
