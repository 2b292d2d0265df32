(** Proofs about [gather_nested]. *)
From Coq Require Import List Bool Arith Lia.
From Verif Require Import Base NestModel NestSpec.
Import ListNotations.

Lemma mem_In d l : mem d l = true <-> In d l.
Proof.
  unfold mem. rewrite existsb_exists. split.
  - intros (x & Hx & E). apply Nat.eqb_eq in E. now subst.
  - intros H. exists d. split; auto. apply Nat.eqb_refl.
Qed.

Lemma mem_false d l : mem d l = false <-> ~ In d l.
Proof. rewrite <- mem_In. destruct (mem d l); split; congruence. Qed.

(** The new name of a dim. *)
Definition name (m : dmap) (d : nat) : nat := match dget d m with Some x => x | None => d end.

Section Gather.
  Variables (s : store) (i : indices).
  Notation beam := (sparse i).

  (** What the first pass keeps. *)
  Definition inv (st : store * dmap) : Prop :=
    (exists ext, fst st = s ++ ext) /\
    (forall d d', dget d (snd st) = Some d' ->
       length s <= d' /\ exists sz, nth_error s d = Some (Dyn sz) /\ In beam (tdims sz) /\
         nth_error (fst st) d' = Some (Dyn (gather sz i))) /\
    (forall d1 d2 x, dget d1 (snd st) = Some x -> dget d2 (snd st) = Some x -> d1 = d2).

  Lemma inv_start : inv (s, []).
  Proof.
    repeat split.
    - exists []. now rewrite app_nil_r.
    - cbn in H. discriminate.
    - cbn in H. discriminate.
    - cbn. discriminate.
  Qed.

  Lemma replace_dims_none m l t : (forall d, In d l -> dget d m = None) -> replace_dims m l t = Ok t.
  Proof.
    induction l as [|d l IH]; intros H; auto. cbn [replace_dims]. rewrite (H d) by now left.
    apply IH. intros. apply H. now right.
  Qed.

  Hypothesis sizes_ok : forall d t, nth_error s d = Some (Dyn t) ->
    proper t /\ forall k, In k (tdims t) -> ~ per_hyp s beam k.

  Lemma inv_per_hyp st d d' : inv st -> dget d (snd st) = Some d' -> per_hyp s beam d.
  Proof.
    intros (_ & H & _) Hd. destruct (H d d' Hd) as (_ & sz & H1 & H2 & _). exists sz. auto.
  Qed.

  Lemma prepare_inv st l : inv st -> (forall d, l = LDim d -> d < length s) ->
    exists st', prepare i st l = Ok st' /\ inv st' /\
      (forall d, dget d (snd st) <> None -> dget d (snd st') <> None) /\
      (forall d, l = LDim d -> per_hyp s beam d -> dget d (snd st') <> None).
  Proof.
    intros Hinv Hl. pose proof Hinv as (He & Hm & Hj). destruct st as [s1 m]. cbn [fst snd] in *.
    destruct He as (ext & ->). cbn [prepare].
    destruct l as [t | d |]; try (exists (s ++ ext, m); split; [reflexivity|]; split; [exact Hinv|]; split; [auto|]; intros; discriminate).
    specialize (Hl d eq_refl). rewrite nth_error_app1 by exact Hl.
    destruct (nth_error s d) as [[n|sz]|] eqn:En.
    - exists (s ++ ext, m). split; [auto|]. split; [auto|]. split; [auto|].
      intros d0 [= ->] (t & Ht & _). congruence.
    - destruct (dget d m) as [x|] eqn:Ed.
      + exists (s ++ ext, m). split; [auto|]. split; [auto|]. split; [auto|].
        intros d0 [= ->] _. cbn [snd]. congruence.
      + destruct (mem beam (tdims sz)) eqn:Eb.
        * destruct (sizes_ok d sz En) as [_ Hp].
          unfold gather_tensor. rewrite replace_dims_none.
          2:{ intros k Hk. destruct (dget k m) as [x|] eqn:Ek; auto. exfalso.
              apply (Hp k Hk). eapply (inv_per_hyp (s ++ ext, m)); eauto. }
          cbn [bind]. rewrite Eb.
          exists ((s ++ ext) ++ [Dyn (gather sz i)], (d, length (s ++ ext)) :: m).
          split; [reflexivity|]. split; [|split].
          -- split; [|split]; cbn [fst snd].
             ++ exists (ext ++ [Dyn (gather sz i)]). now rewrite app_assoc.
             ++ intros a b. cbn [dget]. destruct (Nat.eqb_spec d a) as [<-|Hne].
                ** intros [= <-]. split; [rewrite app_length; lia|].
                   exists sz. repeat split; auto. { now apply mem_In. }
                   rewrite nth_error_app2 by lia. now rewrite Nat.sub_diag.
                ** intros Hab. destruct (Hm a b Hab) as (H1 & sz0 & H2 & H3 & H4).
                   split; [auto|]. exists sz0. repeat split; auto.
                   rewrite nth_error_app1; auto. apply nth_error_Some. congruence.
             ++ assert (Hlt : forall a b, dget a m = Some b -> b < length (s ++ ext)).
                { intros a b Hab. destruct (Hm a b Hab) as (_ & sz0 & _ & _ & H4).
                  apply nth_error_Some. congruence. }
                intros d1 d2 x. cbn [dget].
                destruct (Nat.eqb_spec d d1) as [<-|H1], (Nat.eqb_spec d d2) as [<-|H2]; auto.
                ** intros [= <-] H. apply Hlt in H. lia.
                ** intros H [= <-]. apply Hlt in H. lia.
                ** apply Hj.
          -- cbn [snd]. intros a Ha. cbn [dget]. destruct (Nat.eqb d a); [discriminate | exact Ha].
          -- intros d0 [= ->] _. cbn [snd dget]. now rewrite Nat.eqb_refl.
        * exists (s ++ ext, m). split; [auto|]. split; [auto|]. split; [auto|].
          intros d0 [= ->] (t & Ht & Hb). apply mem_false in Eb. congruence.
    - apply nth_error_None in En. lia.
  Qed.

  Lemma prepare_all_inv ls : forall st, inv st -> (forall d, In (LDim d) ls -> d < length s) ->
    exists st', prepare_all i ls st = Ok st' /\ inv st' /\
      (forall d, dget d (snd st) <> None -> dget d (snd st') <> None) /\
      (forall d, In (LDim d) ls -> per_hyp s beam d -> dget d (snd st') <> None).
  Proof.
    induction ls as [|l ls IH]; intros st Hinv Hd.
    - exists st. split; [reflexivity|]. split; [exact Hinv|]. split; [auto|]. intros d [].
    - destruct (prepare_inv st l Hinv) as (st1 & E1 & Hi1 & Hk1 & Hn1).
      { intros d ->. apply Hd. now left. }
      destruct (IH st1 Hi1) as (st2 & E2 & Hi2 & Hk2 & Hn2).
      { intros d H. apply Hd. now right. }
      exists st2. cbn [prepare_all]. rewrite E1. cbn [bind]. split; [auto|]. split; [auto|].
      split; [auto|]. intros d [-> | H] Hp; auto.
  Qed.

  (** The replacement of the dims of a tensor. *)
  Lemma name_cases st d : inv st -> name (snd st) d = d \/ (length s <= name (snd st) d /\ dget d (snd st) = Some (name (snd st) d)).
  Proof.
    intros (_ & H & _). unfold name. destruct (dget d (snd st)) as [x|] eqn:E; [right|left; auto].
    split; [apply (H d x E) | auto].
  Qed.

  Lemma replace_dims_spec st t : inv st -> proper t -> NoDup (tdims t) -> (forall k, In k (tdims t) -> k < length s) ->
    exists t', replace_dims (snd st) (tdims t) t = Ok t' /\
      tdims t' = map (name (snd st)) (tdims t) /\
      (forall r, tval t' r = tval t (fun d => r (name (snd st) d))).
  Proof.
    intros Hinv Hp Hn Hlt. set (m := snd st) in *.
    assert (Hgen : forall l done cur,
      tdims t = done ++ l -> tdims cur = map (name m) done ++ l ->
      (forall r, tval cur r = tval t (fun d => if mem d done then r (name m d) else r d)) ->
      exists t', replace_dims m l cur = Ok t' /\ tdims t' = map (name m) (tdims t) /\
        (forall r, tval t' r = tval t (fun d => r (name m d)))).
    { induction l as [|d l IH]; intros done cur Ht Hc Hv.
      - exists cur. rewrite app_nil_r in *. split; [auto|]. split; [now rewrite Ht|].
        intros r. rewrite Hv. apply Hp. intros k Hk. rewrite Ht in Hk. apply mem_In in Hk. now rewrite Hk.
      - assert (Hd : ~ In d done /\ ~ In d l).
        { rewrite Ht in Hn. apply NoDup_remove_2 in Hn. rewrite in_app_iff in Hn. tauto. }
        destruct Hd as [Hd1 Hd2].
        assert (Hdl : d < length s) by (apply Hlt; rewrite Ht; apply in_or_app; right; now left).
        cbn [replace_dims].
        assert (Hnd : forall k, In k done -> name m k <> d).
        { intros k Hk E. destruct (name_cases st k Hinv) as [H | [H _]]; fold m in H.
          - rewrite H in E. subst. auto.
          - rewrite E in H. lia. }
        destruct (dget d m) as [d'|] eqn:Ed.
        + unfold replace_dim.
          assert (E1 : mem d (tdims cur) = true).
          { apply mem_In. rewrite Hc. apply in_or_app. right. now left. }
          assert (Hd' : length s <= d').
          { destruct Hinv as (_ & H & _). apply (H d d' Ed). }
          assert (E2 : mem d' (tdims cur) = false).
          { apply mem_false. rewrite Hc, in_app_iff. intros [H | H].
            - apply in_map_iff in H. destruct H as (k & Ek & Hk).
              destruct (name_cases st k Hinv) as [H | [_ H]]; fold m in H.
              + rewrite H in Ek. subst k. assert (d' < length s); [|lia].
                apply Hlt. rewrite Ht. apply in_or_app. now left.
              + destruct Hinv as (_ & _ & Hj). rewrite Ek in H. assert (k = d) by (eapply Hj; eauto).
                subst. auto.
            - assert (d' < length s); [|lia]. apply Hlt. rewrite Ht. apply in_or_app. now right. }
          rewrite E1, E2. cbn [bind].
          apply (IH (done ++ [d])).
          * now rewrite <- app_assoc.
          * cbn [tdims]. rewrite Hc, map_app, map_app. cbn [map]. rewrite <- app_assoc. cbn [app].
            rewrite Nat.eqb_refl. f_equal; [|f_equal].
            -- rewrite map_map. apply map_ext_in. intros k Hk. destruct (Nat.eqb_spec (name m k) d); auto.
               exfalso. eapply Hnd; eauto.
            -- unfold name. now rewrite Ed.
            -- transitivity (map (fun k => k) l); [|now rewrite map_id]. apply map_ext_in.
               intros k Hk. destruct (Nat.eqb_spec k d); auto. subst. contradiction.
          * intros r. cbn [tval]. rewrite Hv. apply Hp. intros k Hk. unfold upd.
            destruct (mem k done) eqn:Ek.
            -- apply mem_In in Ek. destruct (Nat.eqb_spec (name m k) d).
               { exfalso. eapply Hnd; eauto. }
               assert (E : mem k (done ++ [d]) = true) by (apply mem_In, in_or_app; auto).
               now rewrite E.
            -- destruct (Nat.eqb_spec k d) as [->|Hne].
               ++ assert (E : mem d (done ++ [d]) = true) by (apply mem_In, in_or_app; right; now left).
                  rewrite E. unfold name. now rewrite Ed.
               ++ assert (E : mem k (done ++ [d]) = false).
                  { apply mem_false. apply mem_false in Ek. rewrite in_app_iff. cbn. intros [H | [H | []]]; congruence. }
                  now rewrite E.
        + apply (IH (done ++ [d])).
          * now rewrite <- app_assoc.
          * rewrite Hc, map_app, <- app_assoc. cbn [map app]. unfold name at 3. now rewrite Ed.
          * intros r. rewrite Hv. apply Hp. intros k Hk.
            destruct (mem k done) eqn:Ek.
            -- apply mem_In in Ek.
               assert (E : mem k (done ++ [d]) = true) by (apply mem_In, in_or_app; auto).
               now rewrite E.
            -- destruct (Nat.eq_dec k d) as [->|Hne].
               ++ assert (E : mem d (done ++ [d]) = true) by (apply mem_In, in_or_app; right; now left).
                  rewrite E. unfold name. now rewrite Ed.
               ++ assert (E : mem k (done ++ [d]) = false).
                  { apply mem_false. apply mem_false in Ek. rewrite in_app_iff. cbn. intros [H | [H | []]]; congruence. }
                  now rewrite E. }
    apply (Hgen (tdims t) [] t); auto.
  Qed.
End Gather.

Lemma mapM_ok {A B} (f : A -> res B) (g : A -> B) l :
  (forall a, In a l -> f a = Ok (g a)) -> mapM f l = Ok (map g l).
Proof.
  induction l as [|a l IH]; intros H; auto. cbn [mapM map].
  rewrite (H a) by now left. cbn [bind]. rewrite IH; auto. intros. apply H. now right.
Qed.

Lemma mapM_exists {A B} (f : A -> res B) l :
  (forall a, In a l -> exists b, f a = Ok b) -> exists l', mapM f l = Ok l'.
Proof.
  induction l as [|a l IH]; intros H; [now exists []|].
  destruct (H a (or_introl eq_refl)) as (b & Hb).
  destruct IH as (l' & Hl). { intros. apply H. now right. }
  exists (b :: l'). cbn [mapM]. now rewrite Hb, Hl.
Qed.

Lemma mapM_nth {A B} (f : A -> res B) l : forall l',
  mapM f l = Ok l' -> length l' = length l /\
  forall k a, nth_error l k = Some a -> exists b, f a = Ok b /\ nth_error l' k = Some b.
Proof.
  induction l as [|a l IH]; intros l' H; cbn [mapM] in H.
  - injection H as <-. split; auto. intros [|k] a; discriminate.
  - destruct (f a) as [b|] eqn:E; cbn [bind] in H; [|discriminate].
    destruct (mapM f l) as [l1|]; cbn [bind] in H; [|discriminate].
    injection H as <-. destruct (IH l1 eq_refl) as [H1 H2]. split; [cbn; lia|].
    intros [|k] a0; cbn [nth_error].
    + intros [= <-]. eauto.
    + apply H2.
Qed.

Lemma gather_tensor_spec s i st t :
  inv s i st -> (forall d x, nth_error s d = Some (Dyn x) -> proper x /\ forall k, In k (tdims x) -> ~ per_hyp s (sparse i) k) ->
  sparse i < length s -> ~ per_hyp s (sparse i) (sparse i) ->
  (forall k, In k (tdims (itensor i)) -> k < length s /\ ~ per_hyp s (sparse i) k) ->
  proper t -> NoDup (tdims t) -> (forall k, In k (tdims t) -> k < length s) ->
  exists t', gather_tensor (snd st) i t = Ok t' /\
    (forall d', In d' (tdims t') <->
       (exists d, In d (tdims t) /\ d <> sparse i /\ d' = name (snd st) d) \/
       (In (sparse i) (tdims t) /\ In d' (tdims (itensor i)))) /\
    (forall r, tval t' r = tval t (old_pos i (name (snd st)) r)).
Proof.
  intros Hinv Hs Hb Hbp Hix Hp Hn Hlt.
  destruct (replace_dims_spec s i Hs st t Hinv Hp Hn Hlt) as (t1 & E1 & Hd1 & Hv1).
  unfold gather_tensor. rewrite E1. cbn [bind]. set (m := snd st) in *.
  assert (Hsame : forall k, ~ per_hyp s (sparse i) k -> name m k = k).
  { intros k Hk. destruct (name_cases s i st k Hinv) as [H | [_ H]]; auto.
    exfalso. apply Hk. eapply inv_per_hyp; eauto. }
  assert (Hbeam : forall k, In k (tdims t) -> name m k = sparse i -> k = sparse i).
  { intros k Hk E. destruct (name_cases s i st k Hinv) as [H | [H _]]; fold m in H; [congruence|].
    rewrite E in H. lia. }
  assert (Hin : In (sparse i) (tdims t1) <-> In (sparse i) (tdims t)).
  { rewrite Hd1, in_map_iff. split.
    - intros (k & E & Hk). assert (k = sparse i) by auto. now subst.
    - intros H. exists (sparse i). split; auto. }
  destruct (mem (sparse i) (tdims t1)) eqn:Em.
  - apply mem_In in Em. apply Hin in Em as Em'. eexists. split; [reflexivity|]. split.
    + intros d'. cbn [gather tdims]. rewrite in_flat_map. split.
      * intros (x & Hx & H). destruct (Nat.eqb_spec x (sparse i)) as [->|Hne].
        -- apply filter_In in H. right. tauto.
        -- destruct H as [<- | []]. left. rewrite Hd1 in Hx. apply in_map_iff in Hx.
           destruct Hx as (d & <- & Hd). exists d. repeat split; auto.
           intros ->. apply Hne. now apply Hsame.
      * intros [(d & Hd & Hne & ->) | [_ H]].
        -- exists (name m d). split; [rewrite Hd1; now apply in_map|].
           destruct (Nat.eqb_spec (name m d) (sparse i)) as [E|]; [|now left].
           exfalso. auto.
        -- destruct (in_dec Nat.eq_dec d' (tdims t1)) as [Hi|Hi].
           ++ destruct (Nat.eq_dec d' (sparse i)) as [->|Hne].
              ** exists (sparse i). rewrite Nat.eqb_refl. split; auto.
                 apply filter_In. split; auto. rewrite Nat.eqb_refl. apply orb_true_r.
              ** exists d'. split; auto. destruct (Nat.eqb_spec d' (sparse i)); [contradiction | now left].
           ++ exists (sparse i). rewrite Nat.eqb_refl. split; auto.
              apply filter_In. split; auto. apply mem_false in Hi. now rewrite Hi.
    + intros r. cbn [gather tval]. rewrite Hv1. apply Hp. intros k Hk. unfold upd, old_pos.
      destruct (Nat.eqb_spec (name m k) (sparse i)) as [E|E].
      * rewrite (Hbeam k Hk E), Nat.eqb_refl. reflexivity.
      * destruct (Nat.eqb_spec k (sparse i)) as [->|]; auto. exfalso. apply E. now apply Hsame.
  - apply mem_false in Em. assert (Em' : ~ In (sparse i) (tdims t)) by tauto.
    eexists. split; [reflexivity|]. split.
    + intros d'. rewrite Hd1, in_map_iff. split.
      * intros (d & <- & Hd). left. exists d. repeat split; auto. intros ->. auto.
      * intros [(d & Hd & _ & ->) | [H _]]; [eauto | contradiction].
    + intros r. rewrite Hv1. apply Hp. intros k Hk. unfold old_pos.
      destruct (Nat.eqb_spec k (sparse i)) as [->|]; auto. contradiction.
Qed.

Lemma gather_nested_spec s i ls :
  state_ok s i ls -> complete s i ls ->
  exists ls' s' m names, gather_nested s i ls = Ok (ls', s', m) /\
    selected s i ls s' ls' names /\
    (forall d, ~ per_hyp s (sparse i) d -> names d = d) /\
    (forall d, d < length s -> forall r, size_at s' d r = size_at s d r).
Proof.
  intros [Hs Ht Hd Hl [Hb Hbp] Hix Hir] Hc.
  destruct (prepare_all_inv s i Hs ls (s, []) (inv_start s i) Hd) as (st & Ep & Hinv & _ & Hall).
  unfold gather_nested. rewrite Ep. cbn [bind]. set (m := snd st) in *.
  assert (Hsame : forall k, ~ per_hyp s (sparse i) k -> name m k = k).
  { intros k Hk. destruct (name_cases s i st k Hinv) as [H | [_ H]]; auto.
    exfalso. apply Hk. eapply inv_per_hyp; eauto. }
  assert (Hold : forall d, d < length s -> nth_error (fst st) d = nth_error s d).
  { intros d H. destruct Hinv as ((ext & ->) & _). now apply nth_error_app1. }
  (* sizes of a dim *)
  assert (Hsz : forall d, d < length s -> d <> sparse i -> (per_hyp s (sparse i) d -> dget d m <> None) ->
     forall r, size_at (fst st) (name m d) r = size_at s d (old_pos i (name m) r)).
  { intros d Hlt Hne Hph r. destruct (dget d m) as [d'|] eqn:Ed.
    - pose proof Hinv as (_ & Hm & _). destruct (Hm d d' Ed) as (_ & sz & H1 & H2 & H3).
      unfold name, size_at. rewrite Ed, H3, H1. cbn [gather tval]. fold m.
      destruct (Hs d sz H1) as [Hp Hk]. apply Hp. intros k Hki. unfold upd, old_pos.
      destruct (Nat.eqb k (sparse i)); auto. fold (name m k). now rewrite (Hsame k (Hk k Hki)).
    - assert (En : name m d = d) by (unfold name; now rewrite Ed). rewrite En.
      unfold size_at. rewrite (Hold d Hlt). destruct (nth_error s d) as [[n|sz]|] eqn:E; auto.
      destruct (Hs d sz E) as [Hp Hk]. apply Hp. intros k Hki. unfold old_pos.
      destruct (Nat.eqb_spec k (sparse i)) as [->|]; [|now rewrite (Hsame k (Hk k Hki))].
      exfalso. apply Hph; auto. exists sz. auto. }
  assert (Hok : forall a, In a ls -> exists b, gather_leaf (fst st) m i a = Ok b).
  { intros [t | d |] Ha; cbn [gather_leaf].
    - destruct (Ht t Ha) as (Hp & Hn & Hlt).
      destruct (gather_tensor_spec s i st t Hinv Hs Hb Hbp Hix Hp Hn Hlt) as (t' & E & _).
      fold m in E. rewrite E. cbn [bind]. eauto.
    - rewrite (Hold d (Hd d Ha)). destruct (nth_error s d) as [[n|sz]|] eqn:E; eauto.
      destruct (dget d m) eqn:Ed; eauto.
      destruct (mem (sparse i) (tdims sz)) eqn:Em.
      + exfalso. apply mem_In in Em. apply (Hall d Ha); auto. exists sz. auto.
      + cbn. eauto.
    - contradiction. }
  destruct (mapM_exists _ _ Hok) as (ls' & El). rewrite El. cbn [bind].
  exists ls', (fst st), m, (name m). split; [reflexivity|].
  destruct (mapM_nth _ _ _ El) as [Hlen Hnth].
  split; [|split].
  - split; [auto|]. split.
    + intros k d Hk. destruct (Hnth k _ Hk) as (b & Eb & Hkb). apply nth_error_In in Hk.
      assert (Hb' : b = LDim (name m d)).
      { cbn [gather_leaf] in Eb. rewrite (Hold d (Hd d Hk)) in Eb. unfold name.
        destruct (nth_error s d) as [[n|sz]|] eqn:E.
        - destruct (dget d m) as [d'|] eqn:Ed; [|congruence].
          destruct Hinv as (_ & Hm & _). destruct (Hm d d' Ed) as (_ & sz & H1 & _). congruence.
        - destruct (dget d m) as [d'|] eqn:Ed; [congruence|].
          destruct (negb (mem (sparse i) (tdims sz))); cbn in Eb; congruence.
        - apply nth_error_None in E. specialize (Hd d Hk). lia. }
      subst b. split; auto.
    + intros k t Hk. destruct (Hnth k _ Hk) as (b & Eb & Hkb). apply nth_error_In in Hk.
      destruct (Ht t Hk) as (Hp & Hn & Hlt).
      destruct (gather_tensor_spec s i st t Hinv Hs Hb Hbp Hix Hp Hn Hlt) as (t' & E & Hdims & Hval).
      fold m in E, Hdims, Hval. cbn [gather_leaf] in Eb. rewrite E in Eb. cbn [bind] in Eb.
      injection Eb as <-. exists t'. split; [auto|]. split; [auto|]. split; [auto|].
      intros r Hr d Hdt. destruct (Nat.eq_dec d (sparse i)) as [->|Hne].
      * unfold old_pos at 1. rewrite Nat.eqb_refl.
        assert (Hri : tval (itensor i) r < size_at s (sparse i) r).
        { apply Hir. intros k0 Hk0. destruct (Hix k0 Hk0) as [Hk0l _].
          assert (Hin : In k0 (tdims t')) by (apply Hdims; auto).
          specialize (Hr k0 Hin). unfold size_at in *. now rewrite (Hold k0 Hk0l) in Hr. }
        replace (size_at s (sparse i) (old_pos i (name m) r)) with (size_at s (sparse i) r); auto.
        unfold size_at. destruct (nth_error s (sparse i)) as [[n|sz]|] eqn:E0; auto.
        destruct (Hs _ sz E0) as [Hps Hks]. apply Hps. intros k0 Hk0. unfold old_pos.
        destruct (Nat.eqb_spec k0 (sparse i)) as [->|]; [|now rewrite (Hsame k0 (Hks k0 Hk0))].
        exfalso. apply Hbp. exists sz. auto.
      * assert (Hin : In (name m d) (tdims t')) by (apply Hdims; left; exists d; auto).
        specialize (Hr _ Hin). rewrite (Hsz d (Hlt d Hdt) Hne) in Hr.
        -- unfold old_pos at 1. destruct (Nat.eqb_spec d (sparse i)); [contradiction | exact Hr].
        -- intros Hph. apply Hall; auto. eapply Hc; eauto.
  - intros d Hnp. apply Hsame. exact Hnp.
  - intros d Hlt r. unfold size_at. now rewrite (Hold d Hlt).
Qed.
