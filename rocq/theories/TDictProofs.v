From Coq Require Import String.
From Verif Require Import Base ListLemmas PyDict TDictModel TDictSpec.
Local Open Scope nat_scope. Local Open Scope list_scope.

Section T.
  Context {V : Type}.
  Implicit Types (rs : list (@round V)) (full out : @dict rkey (@raw V)).
  Lemma assign_dim_ok o full k (src b : @dim V) e : same_kind src b -> dim_entry o src = Ok e -> dget full k = e ->
    exists x, assign_dim o full k b = Ok x /\ same_kind src x /\ restored o src x.
  Proof.
    intros (Hb & Hs & Hk) He Hg. unfold assign_dim, dim_entry in *. destruct src as [sb ss se sv], b as [bb bs be bv]. cbn in Hb, Hs, Hk, He |- *. subst bb bs. destruct sb.
    - destruct Hk as [K1 K2]. assert (Ke : exists r, match be with Some (h, _) => Some (h, RNone) | None => Some (false, RNone) end = Some (false, r) /\ r = @RNone V).
      { destruct be as [[h v]|]; [rewrite (K2 h v eq_refl)|]; eauto. }
      destruct Ke as (r & Ke & ->). rewrite !Ke. cbn [andb] in He. unfold same_kind, restored, is_static, is_scalar, has_size; cbn.
      destruct (o_scalar o) eqn:Eo; cbn [negb andb].
      + assert (Hv : exists v, e = Some v /\ ((exists h, se = Some (h, v) /\ (true = true -> v <> RNone)) \/ (true = true /\ (se = None \/ exists h, se = Some (h, RNone)) /\ sv = Ok v))).
        { destruct se as [[h [|v|n]]|]; cbn in He.
          - destruct sv as [v|]; cbn in He; [|discriminate]. injection He as <-. exists v. split; [reflexivity|]. right. eauto.
          - injection He as <-. exists (RVal v). split; [reflexivity|]. left. exists h. split; [reflexivity|discriminate].
          - injection He as <-. exists (RInt n). split; [reflexivity|]. left. exists h. split; [reflexivity|discriminate].
          - destruct sv as [v|]; cbn in He; [|discriminate]. injection He as <-. exists v. split; [reflexivity|]. right. eauto. }
        destruct Hv as (v & -> & Hv). rewrite Hg. eexists. split; [reflexivity|]. cbn. split; [split; [reflexivity|split; [reflexivity|split; [exact K1|intros h v' H; injection H; congruence]]]|]. split; [intros [H _]; discriminate|]. split; [congruence|]. intros _ _. eauto.
      + eexists. split; [reflexivity|]. cbn. rewrite ?Ke. split; [split; [reflexivity|split; [reflexivity|split; [exact K1|intros h v0 H; injection H; congruence]]]|]. split; [intros [H _]; discriminate|]. split; [eauto|]. intros _ [H|H]; [discriminate|]. destruct H. now left.
    - cbn [andb] in He. unfold same_kind, restored, is_static, is_scalar, has_size; cbn. destruct se as [[h v]|].
      + destruct be as [[h' v']|]; [|discriminate]. cbn in Hk. injection Hk as <-. injection He as He. destruct (o_scalar o) eqn:Eo, h; cbn [negb andb orb] in *.
        all: subst e; try rewrite Hg; eexists; (split; [reflexivity|]); cbn; (split; [auto|]); (split; [intros [_ H]; discriminate|]); split; try congruence.
        * intros _ _. exists true, v. split; [left; exists true; split; [reflexivity|discriminate]|reflexivity].
        * intros _ _. exists false, v. split; [left; exists false; split; [reflexivity|discriminate]|reflexivity].
        * intros _ _ [H|(v0 & H)]; discriminate.
        * intros _ _. exists true, v. split; [left; exists true; split; [reflexivity|discriminate]|reflexivity].
        * eauto.
        * intros _ [H|H]; [discriminate|]. destruct H. right. eauto.
      + destruct be as [[h' v']|]; [discriminate|]. destruct ss as [n|]; [|discriminate]. injection He as He. rewrite Hg.
        exists {| d_batch := false; d_size := Some n; d_ext := None; d_value := bv |}. split; [destruct (o_scalar o && o_const o); subst e; unfold prepare; cbn; rewrite ?Nat.eqb_refl; reflexivity|]. cbn. split; [auto|]. split; [reflexivity|]. split; intros H; destruct H; auto.
  Qed.

  Definition key_of (r : @round V) : rkey := match r with RTensor n _ => KData n | RDim n i _ => KSize n i end.
  Fixpoint covered (o : opts) (src : @store V) full (vis : list nat) rs : Prop :=
    match rs with
    | [] => True
    | RTensor n t :: rs => dget full (KData n) = Some (t_raw t) /\ covered o src full vis rs
    | RDim n i d :: rs => if o_exclude o && is_visited d vis then covered o src full vis rs
                          else (exists e, dim_entry o (src d) = Ok e /\ dget full (KSize n i) = e) /\ covered o src full (d :: vis) rs
    end.
  Lemma dict_ok_snoc out k v : dict_ok out -> dhas out k = false -> dict_ok (out ++ [(k, v)]).
  Proof.
    unfold dict_ok, dkeys. intros H Hn. rewrite map_app. apply NoDup_Add with (a := k) (l := map fst out); [rewrite <- (app_nil_r (map fst out)) at 1; apply Add_app|]. split; [exact H|]. intros Hi. apply dhas_keys in Hi. congruence.
  Qed.
  Lemma write_ok o src rs vis out full : NoDup (map key_of rs) -> dict_ok out -> write o src rs vis out = Ok full ->
    dict_ok full /\ (forall x, In x out -> In x full) /\ (forall k, In k (dkeys full) -> In k (dkeys out) \/ In k (map key_of rs)) /\ covered o src full vis rs.
  Proof.
    revert vis out. induction rs as [|[n t|n i d] rs IH]; intros vis out Hn Ho E; cbn [write] in E.
    - injection E as <-. cbn. auto.
    - cbn in Hn. inversion Hn as [|? ? Hn1 Hn2]; subst. destruct (dhas out (KData n)) eqn:Eh; cbn in E; [discriminate|]. destruct (IH _ _ Hn2 (dict_ok_snoc _ _ _ Ho Eh) E) as (H1 & H2 & H3 & H4). split; [exact H1|]. split; [intros x Hx; apply H2, in_app_iff; now left|].
      split; [|cbn; split; [apply In_dget; [exact H1|apply H2, in_app_iff; right; now left]|exact H4]]. intros k Hk. apply H3 in Hk. cbn. destruct Hk as [Hk|Hk]; [|tauto]. unfold dkeys in *. rewrite map_app, in_app_iff in Hk. cbn in Hk. tauto.
    - cbn in Hn. inversion Hn as [|? ? Hn1 Hn2]; subst. cbn [covered]. destruct (o_exclude o && is_visited d vis).
      + destruct (IH _ _ Hn2 Ho E) as (H1 & H2 & H3 & H4). split; [exact H1|]. split; [exact H2|]. split; [|exact H4]. intros k Hk. cbn. destruct (H3 k Hk); auto.
      + destruct (dhas out (KSize n i)) eqn:Eh; cbn in E; [discriminate|]. destruct (dim_entry o (src d)) as [[v|]|] eqn:Ed; cbn in E; [| |discriminate].
        * destruct (IH _ _ Hn2 (dict_ok_snoc _ _ _ Ho Eh) E) as (H1 & H2 & H3 & H4). split; [exact H1|]. split; [intros x Hx; apply H2, in_app_iff; now left|].
          split; [|split; [|exact H4]]. { intros k Hk. apply H3 in Hk. cbn. destruct Hk as [Hk|Hk]; [|tauto]. unfold dkeys in *. rewrite map_app, in_app_iff in Hk. cbn in Hk. tauto. }
          eexists. split; [reflexivity|]. apply In_dget; [exact H1|apply H2, in_app_iff; right; now left].
        * destruct (IH _ _ Hn2 Ho E) as (H1 & H2 & H3 & H4). split; [exact H1|]. split; [exact H2|]. split; [intros k Hk; cbn; destruct (H3 k Hk); auto|]. split; [|exact H4]. eexists. split; [reflexivity|]. apply dget_None. intros Hk. destruct (H3 _ Hk) as [Hk'|Hk']; [|contradiction]. apply dhas_keys in Hk'. congruence.
  Qed.
  Definition tensors_of rs : list (string * @raw V) := flat_map (fun r => match r with RTensor n t => [(n, t_raw t)] | _ => [] end) rs.
  Definition dims_of rs : list nat := flat_map (fun r => match r with RDim _ _ d => [d] | _ => [] end) rs.
  Lemma upd_same (s : @store V) d x : upd s d x d = x. Proof. unfold upd. now rewrite Nat.eqb_refl. Qed.
  Lemma upd_other (s : @store V) d x d' : d' <> d -> upd s d x d' = s d'. Proof. intros H. unfold upd. apply Nat.eqb_neq in H. now rewrite H. Qed.
  Lemma read_ok o src full rs vis (s : @store V) : covered o src full vis rs -> (forall d, In d (dims_of rs) -> same_kind (src d) (s d)) -> (forall d, In d vis -> restored o (src d) (s d)) ->
    exists s', read o full rs vis s = Ok (tensors_of rs, s') /\ (forall d, In d vis \/ In d (dims_of rs) -> restored o (src d) (s' d)) /\ (forall d, ~ In d (dims_of rs) -> s' d = s d).
  Proof.
    revert vis s. induction rs as [|[n t|n i d] rs IH]; intros vis s Hc Hk Hv; cbn [covered read] in *.
    - exists s. split; [reflexivity|]. split; [|auto]. intros d [H|[]]. auto.
    - destruct Hc as [H1 H2]. rewrite H1. destruct (IH vis s H2 Hk Hv) as (s' & E & R). rewrite E. exists s'. split; [reflexivity|exact R].
    - change (dims_of (RDim n i d :: rs)) with (d :: dims_of rs) in *. destruct (o_exclude o && is_visited d vis) eqn:Ex.
      + apply andb_true_iff in Ex. destruct Ex as [_ Ex]. apply existsb_exists in Ex. destruct Ex as (d' & Hd & Ed). apply Nat.eqb_eq in Ed. subst d'.
        destruct (IH vis s Hc (fun x H => Hk x (or_intror H)) Hv) as (s' & E & R1 & R2). rewrite E. exists s'. split; [reflexivity|]. split; [intros x [H|[<-|H]]; auto|]. intros x H. apply R2. intros H'. apply H. now right.
      + destruct Hc as [(e & He & Hg) Hc]. destruct (assign_dim_ok o full (KSize n i) (src d) (s d) e (Hk d (or_introl eq_refl)) He Hg) as (x & Ea & K & R). rewrite Ea. cbn [bind].
        destruct (IH (d :: vis) (upd s d x) Hc) as (s' & E & R1 & R2).
        * intros y Hy. destruct (Nat.eq_dec y d) as [->|Hn]; [now rewrite upd_same|rewrite upd_other by exact Hn; auto using in_cons].
        * intros y [<-|Hy]; [now rewrite upd_same|]. destruct (Nat.eq_dec y d) as [->|Hn]; [now rewrite upd_same|rewrite upd_other by exact Hn; auto].
        * rewrite E. exists s'. split; [reflexivity|]. split; [intros y [H|[<-|H]]; apply R1; cbn; auto|]. intros y H. rewrite R2 by (intros H'; apply H; now right). apply upd_other. intros ->. apply H. now left.
  Qed.
  (** the rounds of a dict *)
  Definition erase (r : @round V) : @round V := match r with RTensor n t => RTensor n {| t_dims := t_dims t; t_raw := RNone |} | r => r end.
  Lemma rounds_template td : rounds (template td) = map erase (rounds td).
  Proof.
    unfold rounds, template. induction td as [|[n t] td IH]; [reflexivity|]. cbn [map flat_map]. rewrite map_app, IH. f_equal. unfold rounds_of. cbn. f_equal. rewrite map_map. reflexivity.
  Qed.
  Lemma read_erase o full rs vis (s : @store V) : read o full (map erase rs) vis s = read o full rs vis s.
  Proof.
    revert vis s. induction rs as [|[n t|n i d] rs IH]; intros vis s; cbn; [reflexivity| |].
    - destruct (dget full (KData n)); [|reflexivity]. now rewrite IH.
    - destruct (o_exclude o && is_visited d vis); [apply IH|]. destruct (assign_dim o full (KSize n i) (s d)); cbn; [apply IH|reflexivity].
  Qed.
  Lemma tensors_of_rounds td : tensors_of (rounds td) = map (fun x => (fst x, t_raw (snd x))) td.
  Proof.
    unfold rounds, tensors_of. induction td as [|[n t] td IH]; [reflexivity|]. cbn [flat_map map]. rewrite flat_map_app, IH. unfold rounds_of. cbn. f_equal. generalize (combine (seq 0 (length (t_dims t))) (t_dims t)). induction l as [|p l IHl]; cbn; [reflexivity|exact IHl].
  Qed.
  Lemma dims_of_rounds td : dims_of (rounds td) = all_dims td.
  Proof.
    unfold rounds, dims_of, all_dims. induction td as [|[n t] td IH]; [reflexivity|]. cbn [flat_map]. rewrite flat_map_app, IH. f_equal. unfold rounds_of. cbn. generalize 0 as k. induction (t_dims t) as [|d l IHl]; intros k; cbn; [reflexivity|]. f_equal. apply IHl.
  Qed.
  Lemma rounds_keys_of (x : string * @tensor V) : map key_of (rounds_of x) = KData (fst x) :: map (KSize (fst x)) (seq 0 (length (t_dims (snd x)))).
  Proof. unfold rounds_of. cbn. f_equal. rewrite map_map. cbn. generalize 0 as k. induction (t_dims (snd x)) as [|d l IH]; intros k; cbn; [reflexivity|]. f_equal. apply IH. Qed.
  Lemma rounds_nodup td : dict_ok td -> NoDup (map key_of (rounds td)).
  Proof.
    unfold dict_ok, dkeys, rounds. induction td as [|x td IH]; intros H; [constructor|]. cbn [map flat_map] in *. inversion H as [|? ? H1 H2]; subst. rewrite map_app. apply NoDup_app_intro2; [|now apply IH|].
    - rewrite rounds_keys_of. constructor; [intros Hi; apply in_map_iff in Hi; destruct Hi as (? & ? & _); discriminate|]. apply FinFun.Injective_map_NoDup; [intros a b E; congruence|apply seq_NoDup].
    - intros k Hk Hk'. apply H1. assert (N : forall y, In k (map key_of (rounds_of y)) -> match k with KData n => n | KSize n _ => n end = fst y).
      { intros y. rewrite rounds_keys_of. intros [<-|Hi]; [reflexivity|]. apply in_map_iff in Hi. destruct Hi as (i & <- & _). reflexivity. }
      rewrite <- (N x Hk). apply in_map_iff in Hk'. destruct Hk' as (r & <- & Hr). apply in_flat_map in Hr. destruct Hr as (y & Hy & Hr). rewrite (N y) by (apply in_map, Hr). now apply in_map.
  Qed.
  Lemma in_rounds (td : list (string * @tensor V)) n i d : In (RDim n i d) (rounds td) -> exists t, In (n, t) td /\ nth_error (t_dims t) i = Some d.
  Proof.
    unfold rounds. intros H. apply in_flat_map in H. destruct H as ([n' t] & Ht & [H|H]); [discriminate|]. apply in_map_iff in H. destruct H as ([i' d'] & E & H). cbn in E, H. injection E as -> -> ->. exists t. split; [exact Ht|].
    assert (G : forall l k, In (i, d) (combine (seq k (length l)) l) -> k <= i /\ nth_error l (i - k) = Some d).
    { induction l as [|x l IH]; intros k Hi; [contradiction|]. cbn in Hi. destruct Hi as [Hi|Hi]; [injection Hi as -> ->; rewrite Nat.sub_diag; auto|]. destruct (IH _ Hi) as [H1 H2]. split; [lia|]. replace (i - k) with (S (i - S k)) by lia. exact H2. }
    destruct (G _ _ H) as [_ G']. now rewrite Nat.sub_0_r in G'.
  Qed.
  Lemma write_once o src rs vis out full : o_exclude o = true -> write o src rs vis out = Ok full ->
    exists l : list (string * nat * nat), NoDup (map snd l) /\ (forall d, In d (map snd l) -> ~ In d vis) /\ (forall n i d, In (n, i, d) l -> In (RDim n i d) rs) /\
      forall n i, In (KSize n i) (dkeys full) -> In (KSize n i) (dkeys out) \/ exists d, In (n, i, d) l.
  Proof.
    intros Ho. revert vis out. induction rs as [|[n t|n i d] rs IH]; intros vis out E; cbn [write] in E.
    - injection E as <-. exists []. repeat split; [constructor|intros d []|intros n i d []|auto].
    - destruct (dhas out (KData n)); cbn in E; [discriminate|]. destruct (IH _ _ E) as (l & H1 & H2 & H3 & H4). exists l. split; [exact H1|]. split; [exact H2|]. split; [intros a b c H; right; auto|]. intros a b H. destruct (H4 a b H) as [H'|H']; [|auto]. unfold dkeys in H'. rewrite map_app, in_app_iff in H'. destruct H' as [H'|[H'|[]]]; [auto|discriminate].
    - rewrite Ho in E. cbn [andb] in E. destruct (is_visited d vis) eqn:Ex.
      + destruct (IH _ _ E) as (l & H1 & H2 & H3 & H4). exists l. split; [exact H1|]. split; [exact H2|]. split; [intros a b c H; right; auto|exact H4].
      + destruct (dhas out (KSize n i)); cbn in E; [discriminate|]. destruct (dim_entry o (src d)) as [e|]; cbn in E; [|discriminate]. destruct (IH _ _ E) as (l & H1 & H2 & H3 & H4). exists ((n, i, d) :: l). cbn [map snd]. split; [|split; [|split]].
        * constructor; [|exact H1]. intros H. apply (H2 d H). now left.
        * intros x [<-|H] Hi; [|apply (H2 x H); now right]. assert (T : is_visited d vis = true) by (apply existsb_exists; exists d; split; [exact Hi|apply Nat.eqb_refl]). congruence.
        * intros a b c [H|H]; [injection H as <- <- <-; now left|right; auto].
        * intros a b H. destruct (H4 a b H) as [H'|(c & H')]; [|right; exists c; now right]. destruct e as [v|]; [|auto]. unfold dkeys in H'. rewrite map_app, in_app_iff in H'. destruct H' as [H'|[H'|[]]]; [auto|]. injection H' as <- <-. right. exists d. now left.
  Qed.
  Lemma rounds_in (td : list (string * @tensor V)) n t i d : In (n, t) td -> nth_error (t_dims t) i = Some d -> In (RDim n i d) (rounds td).
  Proof.
    intros Ht Hi. unfold rounds. apply in_flat_map. exists (n, t). split; [exact Ht|]. right. cbn. apply in_map_iff. exists (i, d). split; [reflexivity|]. assert (G : forall l k j, nth_error l j = Some d -> In (k + j, d) (combine (seq k (length l)) l)).
    { induction l as [|x l IH]; intros k [|j] H; try discriminate; cbn in *; [injection H as ->; left; f_equal; lia|]. right. rewrite <- Nat.add_succ_comm. now apply IH. }
    exact (G _ 0 i Hi).
  Qed.
  Lemma assign_static o full k (d x : @dim V) : assign_dim o full k d = Ok x -> is_static d ->
    is_static x /\ d_size x = d_size d /\ forall v, dget full k = Some v -> v = match d_size d with Some n => RInt n | None => RNone end.
  Proof.
    destruct d as [b sz ext val]. unfold is_static, assign_dim. cbn. intros E [-> ->]. destruct (dget full k) as [v|]; [|injection E as <-; cbn; repeat split; auto; discriminate].
    destruct (size_is sz v) eqn:Es; cbn in E; [|discriminate]. injection E as <-. cbn. split; [auto|]. split; [reflexivity|]. intros v' Hv. injection Hv as <-. unfold size_is in Es. destruct sz, v; try discriminate; [apply Nat.eqb_eq in Es; congruence|reflexivity].
  Qed.
  Lemma read_sound o full rs vis (s s' : @store V) l : read o full rs vis s = Ok (l, s') ->
    map fst l = map fst (tensors_of rs) /\ (forall n v, In (n, v) l -> dget full (KData n) = Some v) /\
    (o_exclude o = false -> forall n i d v, In (RDim n i d) rs -> is_static (s d) -> dget full (KSize n i) = Some v -> v = match d_size (s d) with Some n => RInt n | None => RNone end).
  Proof.
    revert vis s l. induction rs as [|[n t|n i d] rs IH]; intros vis s l E; cbn [read] in E.
    - injection E as <- <-. split; [reflexivity|]. split; [intros ? ? []|intros _ ? ? ? ? []].
    - destruct (dget full (KData n)) as [v|] eqn:Ed; [|discriminate]. destruct (read o full rs vis s) as [[l0 s0]|] eqn:Er; cbn in E; [|discriminate]. injection E as <- <-. destruct (IH _ _ _ Er) as (H1 & H2 & H3). cbn. split; [f_equal; exact H1|]. split; [intros a b [H|H]; [injection H as <- <-; exact Ed|auto]|].
      intros Ho a b c w [H|H]; [discriminate|eauto].
    - change (tensors_of (RDim n i d :: rs)) with (tensors_of rs). destruct (o_exclude o && is_visited d vis) eqn:Ex.
      + destruct (IH _ _ _ E) as (H1 & H2 & _). split; [exact H1|]. split; [exact H2|]. intros Ho. rewrite Ho in Ex. discriminate.
      + destruct (assign_dim o full (KSize n i) (s d)) as [x|] eqn:Ea; cbn in E; [|discriminate]. destruct (IH _ _ _ E) as (H1 & H2 & H3). split; [exact H1|]. split; [exact H2|]. intros Ho a b c w [H|H] Hs Hw.
        * injection H as <- <- <-. now apply (assign_static o full _ _ _ Ea Hs).
        * destruct (Nat.eq_dec c d) as [->|Hn].
          -- destruct (assign_static o full _ _ _ Ea Hs) as (S1 & S2 & _). specialize (H3 Ho a b d w H). rewrite upd_same, S2 in H3. auto.
          -- specialize (H3 Ho a b c w H). rewrite upd_other in H3 by exact Hn. auto.
  Qed.
  Lemma write_sizes o src rs vis out full : write o src rs vis out = Ok full ->
    forall n i v, In (KSize n i, v) full -> In (KSize n i, v) out \/ exists d, In (RDim n i d) rs /\ dim_entry o (src d) = Ok (Some v).
  Proof.
    revert vis out. induction rs as [|[n t|n i d] rs IH]; intros vis out E a b w Hw; cbn [write] in E.
    - injection E as <-. auto.
    - destruct (dhas out (KData n)); cbn in E; [discriminate|]. destruct (IH _ _ E a b w Hw) as [H|(d & H1 & H2)]; [|right; exists d; split; [now right|exact H2]]. apply in_app_iff in H. destruct H as [H|[H|[]]]; [auto|discriminate].
    - destruct (o_exclude o && is_visited d vis); [destruct (IH _ _ E a b w Hw) as [H|(d' & H1 & H2)]; [auto|right; exists d'; split; [now right|exact H2]]|].
      destruct (dhas out (KSize n i)); cbn in E; [discriminate|]. destruct (dim_entry o (src d)) as [e|] eqn:Ed; cbn in E; [|discriminate]. destruct (IH _ _ E a b w Hw) as [H|(d' & H1 & H2)]; [|right; exists d'; split; [now right|exact H2]].
      destruct e as [v|]; [|auto]. apply in_app_iff in H. destruct H as [H|[H|[]]]; [auto|]. injection H as <- <- <-. right. exists d. split; [now left|exact Ed].
  Qed.
  Lemma covered_in o src full rs vis n i d : o_exclude o = false -> covered o src full vis rs -> In (RDim n i d) rs -> exists e, dim_entry o (src d) = Ok e /\ dget full (KSize n i) = e.
  Proof.
    intros Ho. revert vis. induction rs as [|[m t|m j c] rs IH]; intros vis Hc Hi; cbn [covered] in Hc; [contradiction| |].
    - destruct Hi as [Hi|Hi]; [discriminate|]. destruct Hc. eauto.
    - rewrite Ho in Hc. cbn [andb] in Hc. destruct Hc as [H1 H2]. destruct Hi as [Hi|Hi]; [injection Hi as -> -> ->; exact H1|eauto].
  Qed.
End T.
