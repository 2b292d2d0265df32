(** Proofs for set_deep and apply. *)
From Coq Require Import String Ascii.
From Verif Require Import Base PyDict ListLemmas ModTreeModel ModTreeSpec ModTreeProofs ModParamProofs.
From Verif Require SeqOrderModel SeqOrderProofs.
Local Open Scope nat_scope.
Import SeqOrderModel(split_on).

Lemma has_dot_false s : dotfree s <-> has_dot s = false.
Proof.
  induction s as [|c s IH]; cbn; [tauto|]. destruct (Ascii.eqb_spec c ".") as [->|Hc]; cbn.
  - split; [intros H; exfalso; apply H; now left|discriminate].
  - rewrite <- IH. split; [tauto|]. intros H [E|E]; [easy|tauto].
Qed.
Lemma has_dot_app a b : has_dot (a ++ b) = has_dot a || has_dot b.
Proof. induction a as [|c a IH]; [reflexivity|]. cbn [append has_dot]. now rewrite IH, orb_assoc. Qed.

Lemma vars_set h m d m' : m < length h -> vars (set_nth h m d) m' = if m' =? m then d else vars h m'.
Proof.
  intros Hm. unfold vars, set_nth. destruct (Nat.eqb_spec m' m) as [->|Hne].
  - rewrite app_nth2; rewrite firstn_length_le by lia; [|lia]. now rewrite Nat.sub_diag.
  - destruct (Nat.lt_ge_cases m' m) as [Hlt|Hge].
    + rewrite app_nth1 by (rewrite firstn_length_le; lia). rewrite <- (firstn_skipn m h) at 2. rewrite app_nth1; [easy|]. rewrite firstn_length_le; lia.
    + rewrite app_nth2; rewrite firstn_length_le by lia; [|lia]. replace (m' - m) with (S (m' - S m)) by lia. cbn [nth].
      rewrite <- (firstn_skipn (S m) h) at 2. rewrite app_nth2; rewrite firstn_length_le by lia; [easy|lia].
Qed.
Lemma set_written h m n v : m < length h -> written h (setattr h m n v) m n v.
Proof.
  intros Hm. split.
  - unfold setattr, set_nth. rewrite app_length. cbn [length]. rewrite firstn_length_le, skipn_length by lia. lia.
  - intros m' n'. unfold setattr. rewrite vars_set by easy. destruct (Nat.eqb_spec m' m) as [->|]; cbn [andb]; [|reflexivity].
    rewrite dget_dset. cbn [keqb EqB_string]. now rewrite String.eqb_sym.
Qed.

Theorem set_deep_spec h (Hg : good_heap h) root (Hroot : root < length h) ns n m v : path h root ns m -> good_name n -> length ns <= 1 ->
  exists h', set_deep h root (dotted (ns ++ [n])) v = Ok h' /\ written h h' m n v.
Proof.
  intros Hp Hn Hl. pose proof (path_good _ _ _ _ Hg Hp) as Hgn. unfold set_deep.
  destruct (String.eqb_spec (dotted (ns ++ [n])) "") as [E|_].
  { apply dotted_nil in E; [now apply app_eq_nil in E|]. apply Forall_app. split; [easy|now constructor]. }
  assert (Hm : m < length h) by (eapply path_lt; eauto).
  destruct ns as [|a [|b ns]]; [| |cbn in Hl; lia].
  - inversion Hp; subst. cbn [app dotted String.concat]. rewrite (proj1 (has_dot_false n)) by apply Hn. eexists. split; [reflexivity|]. now apply set_written.
  - inversion Hgn as [|? ? Ha _]; subst.
    assert (Hd : has_dot (dotted ([a] ++ [n])) = true). { cbn. rewrite !has_dot_app. cbn. apply orb_true_r. }
    rewrite Hd. unfold rsplit_dot. rewrite split_dotted; [|discriminate|exact (Forall_cons _ Ha (Forall_cons _ Hn (Forall_nil _)))]. cbn [app length Nat.leb Nat.add].
    assert (Ea : get_deep h root a = Ok (AMod m)). { apply get_deep_module; [easy|]. now exists [a]. }
    rewrite Ea. cbn [bind]. eexists. split; [reflexivity|]. now apply set_written.
Qed.
Theorem set_deep_fails h root ns n v : Forall good_name ns -> good_name n -> 2 <= length ns -> set_deep h root (dotted (ns ++ [n])) v = Err ValueError.
Proof.
  intros Hgn Hn Hl. unfold set_deep. assert (Hall : Forall good_name (ns ++ [n])) by (apply Forall_app; split; [easy|now constructor]).
  destruct (String.eqb_spec (dotted (ns ++ [n])) "") as [E|_]; [apply dotted_nil in E; [now apply app_eq_nil in E|easy]|].
  assert (Hd : has_dot (dotted (ns ++ [n])) = true).
  { destruct ns; [cbn in Hl; lia|]. rewrite dotted_snoc by discriminate. rewrite !has_dot_app. cbn. apply orb_true_r. }
  rewrite Hd. unfold rsplit_dot. rewrite split_dotted; [|intros E; now apply app_eq_nil in E|easy].
  assert (Hlen : 3 <= length (ns ++ [n])) by (rewrite app_length; cbn; lia). set (l := ns ++ [n]) in *. clearbody l.
  destruct (Nat.leb_spec (length l) (2 + 1)).
  - destruct l as [|a [|b [|c l]]]; cbn in *; try lia. reflexivity.
  - assert (Hs : length (skipn (length l - 2) l) = 2) by (rewrite skipn_length; lia).
    destruct (skipn (length l - 2) l) as [|a [|b [|c l']]]; try discriminate. reflexivity.
Qed.

(** ** apply *)
Lemma scan_false prefix items : forall memo queue, let '(out, memo', queue') := scan_children false prefix items memo queue in
  queue' = queue /\ NoDup (map snd out) /\ (forall x, In x (map snd out) <-> ~ In x memo /\ exists n, In (n, AMod x) items).
Proof.
  induction items as [|(n, a) items IH]; intros memo queue; cbn [scan_children].
  - split; [easy|]. split; [constructor|]. intros x. split; [intros []|intros (_ & n & [])].
  - destruct a as [k|p|y].
    + destruct (mem k memo) eqn:Em.
      * specialize (IH memo queue). destruct (scan_children false prefix items memo queue) as [[out memo'] queue']. destruct IH as (H1 & H2 & H3).
        split; [easy|]. split; [easy|]. intros x. rewrite H3. apply mem_In in Em. split; intros (Hx & n' & Hn'); (split; [easy|]).
        -- exists n'. now right.
        -- destruct Hn' as [[= -> ->]|Hn']; [easy|]. now exists n'.
      * specialize (IH (k :: memo) queue). destruct (scan_children false prefix items (k :: memo) queue) as [[out memo'] queue'].
        destruct IH as (H1 & H2 & H3). apply mem_nIn in Em. split; [easy|]. cbn [map snd]. split.
        -- constructor; [|easy]. rewrite H3. intros (Hk & _). apply Hk. now left.
        -- intros x. cbn [In]. rewrite H3. split.
           ++ intros [<-|(Hx & n' & Hn')]; [split; [easy|]; exists n; now left|]. split; [intros Hm; apply Hx; now right|]. exists n'. now right.
           ++ intros (Hx & n' & [[= -> ->]|Hn']); [now left|]. destruct (Nat.eq_dec k x) as [|Hne]; [now left|]. right.
              split; [intros [?|?]; easy|]. now exists n'.
    + specialize (IH memo queue). destruct (scan_children false prefix items memo queue) as [[out memo'] queue']. destruct IH as (H1 & H2 & H3).
      split; [easy|]. split; [easy|]. intros x. rewrite H3. split; intros (Hx & n' & Hn'); (split; [easy|]); exists n'; [now right|]. now destruct Hn'.
    + specialize (IH memo queue). destruct (scan_children false prefix items memo queue) as [[out memo'] queue']. destruct IH as (H1 & H2 & H3).
      split; [easy|]. split; [easy|]. intros x. rewrite H3. split; intros (Hx & n' & Hn'); (split; [easy|]); exists n'; [now right|]. now destruct Hn'.
Qed.
Lemma children_spec h m : exists l, named_modules h m false false = Ok l /\ NoDup (map snd l)
  /\ forall k, In k (map snd l) <-> k <> m /\ exists n, In (n, AMod k) (vars h m).
Proof.
  unfold named_modules. replace (2 + length h) with (S (S (length h))) by lia. cbn [modules_loop].
  pose proof (scan_false ""%string (vars h m) [m] []) as H. destruct (scan_children false "" (vars h m) [m] []) as [[out memo'] queue'].
  destruct H as (-> & H2 & H3). cbn [bind]. rewrite app_nil_r. exists out. split; [easy|]. split; [easy|]. intros k. rewrite H3. cbn.
  split; intros (H & Hn); (split; [|easy]); [intros ->; apply H; now left|intros [?|[]]; congruence].
Qed.

Theorem apply_spec fuel h : forall m calls, apply_trace fuel h m = Ok calls ->
  (forall k, In k calls <-> reachable h m k) /\ children_first h calls /\ exists before, calls = before ++ [m].
Proof.
  induction fuel as [|fuel IH]; intros m calls E; [discriminate|]. cbn [apply_trace] in E.
  destruct (children_spec h m) as (l & El & Hn & Hl). rewrite El in E. cbn [bind] in E. apply bind_Ok in E as (parts & Ep & E).
  apply Ok_inj in E. subst calls. apply mapM_Ok_Forall2 in Ep.
  assert (Hparts : forall part, In part parts -> exists k, k <> m /\ (exists n, In (n, AMod k) (vars h m)) /\ apply_trace fuel h k = Ok part).
  { intros part Hpart. clear -Ep Hl Hpart. assert (H : exists x, In x l /\ apply_trace fuel h (snd x) = Ok part).
    { clear Hl. induction Ep as [|x y l ps Hxy _ IH']; [easy|]. destruct Hpart as [<-|Hp]; [exists x; split; [now left|easy]|].
      destruct (IH' Hp) as (x' & Hx' & E). exists x'. split; [now right|easy]. }
    destruct H as (x & Hx & E). exists (snd x). apply (in_map snd) in Hx. apply Hl in Hx. now split. }
  assert (Hkids : forall k n, k <> m -> In (n, AMod k) (vars h m) -> exists part, In part parts /\ apply_trace fuel h k = Ok part).
  { intros k n Hk Hin. assert (Hkl : In k (map snd l)) by (apply Hl; split; [easy|now exists n]). clear -Ep Hkl.
    induction Ep as [|x y l ps Hxy _ IH']; [easy|]. destruct Hkl as [<-|Hp]; [exists y; split; [now left|easy]|].
    destruct (IH' Hp) as (part & Hpt & E). exists part. split; [now right|easy]. }
  split; [|split; [|now exists (concat parts)]].
  - intros k. rewrite in_app_iff, in_concat. split.
    + intros [(part & Hpart & Hk)|[<-|[]]]; [|exists []; constructor]. destruct (Hparts _ Hpart) as (c & Hc & (n & Hn') & Ec).
      destruct (IH _ _ Ec) as (H1 & _). destruct (proj1 (H1 k) Hk) as [ns Hpath]. exists (n :: ns). eapply path_cons; [exact Hn'|exact Hpath].
    + intros (ns & Hns). destruct (Nat.eq_dec k m) as [->|Hkm]; [right; now left|]. left.
      (* the last visit of m on the path *)
      assert (Hlast : exists c n ns', c <> m /\ In (n, AMod c) (vars h m) /\ path h c ns' k).
      { assert (H : forall a ns k, path h a ns k -> k <> m -> (exists ns', path h a ns' k /\ a <> m) \/ exists c n ns', c <> m /\ In (n, AMod c) (vars h m) /\ path h c ns' k).
        { clear. intros a ns k Hp Hkm. induction Hp as [x|a n c ns k Hin Hp IH]; [left; exists []; split; [constructor|easy]|].
          destruct (IH Hkm) as [(ns2 & Hp2 & Hc)|H]; [|now right]. destruct (Nat.eq_dec a m) as [->|Ha].
          - right. exists c, n, ns2. repeat split; easy.
          - left. exists (n :: ns2). split; [econstructor; eauto|easy]. }
        specialize (H m ns k Hns Hkm). destruct H as [(ns' & _ & Hc)|H']; [now destruct Hc|exact H']. }
      destruct Hlast as (c & n & ns' & Hc & Hin & Hp). destruct (Hkids c n Hc Hin) as (part & Hpart & Ec).
      exists part. split; [easy|]. destruct (IH _ _ Ec) as (H1 & _). apply H1. now exists ns'.
  - intros before k after n c Heq Hin Hck.
    destruct (in_dec Nat.eq_dec c before) as [|Hno]; [easy|exfalso].
    assert (Hcat : forall ps b a, (forall part, In part ps -> In part parts) -> concat ps = b ++ k :: a -> In c b).
    { intros ps. induction ps as [|part ps IHp]; intros b a Hsub Ec; [now destruct b|]. cbn in Ec.
      destruct (Hparts part (Hsub _ (or_introl eq_refl))) as (c' & _ & _ & Ec'). destruct (IH _ _ Ec') as (_ & Hcf & _).
      destruct (Nat.lt_ge_cases (length b) (length part)) as [Hlt|Hge].
      - apply (Hcf b k (skipn (S (length b)) part) n c); [|easy|easy].
        assert (E1 : firstn (length part) (part ++ concat ps) = part) by (rewrite firstn_app, Nat.sub_diag, firstn_all; cbn; now rewrite app_nil_r).
        rewrite Ec, firstn_app in E1. rewrite firstn_all2 in E1 by lia. replace (length part - length b) with (S (length part - S (length b))) in E1 by lia.
        cbn [firstn] in E1. rewrite <- E1 at 1. f_equal. f_equal. rewrite <- E1 at 2. rewrite skipn_app, skipn_all2 by lia.
        replace (S (length b) - length b) with 1 by lia. reflexivity.
      - assert (E1 : skipn (length part) (part ++ concat ps) = concat ps) by (rewrite skipn_app, Nat.sub_diag, skipn_all; reflexivity).
        rewrite Ec, skipn_app in E1. replace (length part - length b) with 0 in E1 by lia. cbn [skipn] in E1.
        assert (Hc : In c (skipn (length part) b)) by (eapply IHp; [intros p Hp; apply Hsub; now right|symmetry; exact E1]).
        now apply In_skipn in Hc. }
    destruct (list_eq_dec Nat.eq_dec after []) as [->|Hne].
    + apply app_inj_tail in Heq as [<- <-]. destruct (Hkids c n Hck Hin) as (part & Hpart & Ec). apply Hno, in_concat. exists part. split; [easy|].
      destruct (IH _ _ Ec) as (H1 & _). apply H1. exists []. constructor.
    + destruct (exists_last Hne) as (after' & x & ->). rewrite app_comm_cons, app_assoc in Heq. apply app_inj_tail in Heq as [Heq _].
      apply Hno. eapply (Hcat parts before after'); [easy|exact Heq].
Qed.
Lemma apply_total h (Hok : acyclic h) : forall m, exists fuel calls, apply_trace fuel h m = Ok calls.
Proof.
  destruct Hok as (rank & Hr). assert (H : forall f m, rank m < f -> exists calls, apply_trace f h m = Ok calls).
  { induction f as [|f IH]; intros m Hm; [lia|]. cbn [apply_trace]. destruct (children_spec h m) as (l & El & _ & Hl). rewrite El. cbn [bind].
    assert (Hx : exists ps, mapM (fun nm => apply_trace f h (snd nm)) l = Ok ps).
    { assert (Hk : forall k, In k (map snd l) -> rank k < f). { intros k Hk. apply Hl in Hk as (_ & n & Hn). specialize (Hr _ _ _ Hn). lia. }
      clear -IH Hk. induction l as [|x l IHl]; [now exists []|]. cbn in *. destruct (IH (snd x)) as (c & Ec); [apply Hk; now left|].
      destruct IHl as (ps & Eps); [intros k Hin; apply Hk; now right|]. rewrite Ec. cbn [bind]. rewrite Eps. now eexists. }
    destruct Hx as (ps & ->). now eexists. }
  intros m. destruct (H (S (rank m)) m) as (calls & E); [lia|]. now exists (S (rank m)), calls.
Qed.
