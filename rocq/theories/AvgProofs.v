From Coq Require Import String QArith Qcanon Lia Permutation.
From Verif Require Import Base ListLemmas AvgModel AvgSpec.
Local Open Scope nat_scope.

Lemma find_app {A} k (l l' : list (string * A)) : find k (l ++ l') = match find k l with Some v => Some v | None => find k l' end.
Proof. induction l as [|[k' v] l IH]; cbn; auto. destruct (String.eqb k k'); auto. Qed.
Lemma find_in {A} k (l : list (string * A)) v : find k l = Some v -> In (k, v) l.
Proof. induction l as [|[k' v'] l IH]; cbn; [discriminate|]. destruct (String.eqb_spec k k') as [->|H]; [intro E; left; congruence|auto]. Qed.
Lemma find_none {A} k (l : list (string * A)) : find k l = None -> forall v, ~ In (k, v) l.
Proof. induction l as [|[k' v'] l IH]; cbn; auto. destruct (String.eqb_spec k k') as [->|H]; [discriminate|]. intros E v [E'|Hin]; [congruence|]. now apply (IH E v). Qed.

(** All parameters of all files, in order *)
Definition entries (cs : list (nat * ckpt)) : list (string * loc) := flat_map (fun ic => map (fun p => (fst p, (fst ic, snd p))) (params (snd ic))) cs.
Definition add_entry (s : (loc -> Qc) * list (string * loc) * (string -> nat)) (p : string * loc) : (loc -> Qc) * list (string * loc) * (string -> nat) :=
  let '(m, md, n) := s in
  let n' := fun k' => if String.eqb (fst p) k' then S (n k') else n k' in
  match find (fst p) md with
  | Some l => (fun l' => if loc_eqb l l' then (m l + m (snd p))%Qc else m l', md, n')
  | None => (m, md ++ [p], n')
  end.
Definition core (s : state) := (mem s, model s, num s).

Lemma add_params_core i ps : forall s, core (fold_left (add_param i) ps s) = fold_left add_entry (map (fun p => (fst p, (i, snd p))) ps) (core s) /\
  o_epoch (fold_left (add_param i) ps s) = o_epoch s /\ o_step (fold_left (add_param i) ps s) = o_step s /\
  o_epochs (fold_left (add_param i) ps s) = o_epochs s /\ o_steps (fold_left (add_param i) ps s) = o_steps s /\ o_others (fold_left (add_param i) ps s) = o_others s.
Proof.
  induction ps as [|[k a] ps IH]; intro s; cbn [fold_left map]; [repeat split|].
  destruct (IH (add_param i s (k, a))) as (H1 & H2 & H3 & H4 & H5 & H6). rewrite H1, H2, H3, H4, H5, H6.
  unfold add_param, core, add_entry. cbn [fst snd]. destruct (find k (model s)); repeat split.
Qed.
Lemma add_ckpts_core cs : forall s, core (fold_left add_ckpt cs s) = fold_left add_entry (entries cs) (core s).
Proof.
  induction cs as [|[i c] cs IH]; intro s; cbn [fold_left entries flat_map]; auto. rewrite IH. fold (entries cs). rewrite fold_left_app. f_equal.
  destruct (add_params_core i (params c) s) as [H _]. exact H.
Qed.

Lemma loc_eqb_spec a b : loc_eqb a b = true <-> a = b.
Proof. destruct a, b. unfold loc_eqb. cbn. rewrite Bool.andb_true_iff, !Nat.eqb_eq. split; [intros [-> ->]; auto|intro E; split; congruence]. Qed.

Definition with_key (k : string) (l : list (string * loc)) : list loc := map snd (filter (fun p => String.eqb k (fst p)) l).
Lemma with_key_snoc k l p : with_key k (l ++ [p]) = with_key k l ++ (if String.eqb k (fst p) then [snd p] else []).
Proof. unfold with_key. rewrite filter_app, map_app. f_equal. cbn. destruct (String.eqb k (fst p)); auto. Qed.
Lemma sum_snoc l x : sum (l ++ [x]) = (sum l + x)%Qc.
Proof. unfold sum. now rewrite fold_left_app. Qed.

(** The sums *)
Lemma entries_inv m0 es : NoDup (map snd es) ->
  let '(m, md, n) := fold_left add_entry es (m0, [], fun _ => 0) in
  (forall k, n k = length (with_key k es)) /\
  (forall k, find k md = None -> with_key k es = []) /\
  (forall k l, find k md = Some l -> m l = sum (map m0 (with_key k es)) /\ In l (with_key k es)) /\
  (forall l, ~ In l (map snd md) -> m l = m0 l) /\ (forall p, In p md -> In p es) /\ NoDup (map fst md).
Proof.
  induction es as [|[k0 l0] es IH] using rev_ind; intro ND.
  - cbn. repeat split; auto; try discriminate; try contradiction. constructor.
  - rewrite map_app in ND. cbn in ND. apply NoDup_remove in ND. rewrite app_nil_r in ND. destruct ND as [ND Hl0].
    rewrite fold_left_app. cbn [fold_left]. destruct (fold_left add_entry es (m0, [], fun _ => 0)) as [[m md] n] eqn:E0.
    destruct (IH ND) as (Hn & Hno & Hs & Hu & Hsub & HND). clear IH.
    assert (Huniq : forall k k' l, find k md = Some l -> find k' md = Some l -> k = k').
    { intros k k' l H1 H2. apply find_in, Hsub in H1. apply find_in, Hsub in H2. clear -H1 H2 ND.
      induction es as [|[a b] es IH]; [contradiction|]. cbn in ND. inversion ND as [|? ? Hn ND']; subst.
      assert (forall q, In (q, l) es -> In l (map snd es)) by (intros q Hq; now apply (in_map snd) in Hq).
      destruct H1 as [H1|H1], H2 as [H2|H2]; [congruence| | |auto]; exfalso; apply Hn. { assert (b = l) by congruence. subst. eauto. } assert (b = l) by congruence. subst. eauto. }
    assert (Hml0 : m l0 = m0 l0). { apply Hu. intro Hin. apply in_map_iff in Hin. destruct Hin as (p & <- & Hp). apply Hl0. apply in_map. now apply Hsub. }
    unfold add_entry. cbn [fst snd]. destruct (find k0 md) as [l1|] eqn:Ef.
    + split; [|split; [|split; [|split; [|split]]]]; auto.
      * intro k. rewrite with_key_snoc, app_length, Hn. cbn [fst snd]. rewrite String.eqb_sym. destruct (String.eqb k k0); cbn; lia.
      * intros k Hk. rewrite with_key_snoc, (Hno k Hk). cbn [fst]. destruct (String.eqb_spec k k0) as [->|]; [congruence|reflexivity].
      * intros k l Hk. rewrite with_key_snoc. cbn [fst snd]. destruct (Hs k l Hk) as [Hsum Hin]. split; [|apply in_or_app; now left].
        destruct (String.eqb_spec k k0) as [->|Hkk].
        -- assert (l = l1) by congruence. subst l1. rewrite (proj2 (loc_eqb_spec l l) eq_refl), map_app. cbn [map]. rewrite sum_snoc. congruence.
        -- rewrite app_nil_r. destruct (loc_eqb l1 l) eqn:El; auto. apply loc_eqb_spec in El. subst l1. destruct Hkk. eapply Huniq; eauto.
      * intros l Hl. destruct (loc_eqb l1 l) eqn:El; auto. apply loc_eqb_spec in El. subst l1. destruct Hl. apply find_in in Ef. now apply (in_map snd) in Ef.
      * intros p Hp. apply in_or_app. left. auto.
    + split; [|split; [|split; [|split; [|split]]]].
      * intro k. rewrite with_key_snoc, app_length, Hn. cbn [fst snd]. rewrite String.eqb_sym. destruct (String.eqb k k0); cbn; lia.
      * intros k Hk. rewrite find_app in Hk. rewrite with_key_snoc. cbn [fst snd find] in *. destruct (find k md) eqn:Ek; [discriminate|]. rewrite (Hno k Ek). destruct (String.eqb k k0); [discriminate|reflexivity].
      * intros k l Hk. rewrite find_app in Hk. rewrite with_key_snoc. cbn [fst snd find] in *. destruct (find k md) as [l'|] eqn:Ek.
        -- assert (l' = l) by congruence. subst l'. destruct (Hs k l Ek) as [Hsum Hin]. destruct (String.eqb_spec k k0) as [->|]; [congruence|]. rewrite app_nil_r. auto.
        -- rewrite (Hno k Ek). destruct (String.eqb k k0); [|discriminate]. assert (l0 = l) by congruence. subst l0. cbn. split; [|now left]. rewrite Hml0. unfold sum. cbn. ring.
      * intros l Hl. apply Hu. intro Hin. apply Hl. rewrite map_app. apply in_or_app. now left.
      * intros p Hp. apply in_app_or in Hp. destruct Hp as [Hp|Hp]; apply in_or_app; auto.
      * rewrite map_app. cbn. apply NoDup_app_intro2; auto; [constructor; [auto|constructor]|]. intros x Hin [<-|[]]. apply in_map_iff in Hin. destruct Hin as ([a b] & Ha & Hb). cbn in Ha. subst a. now apply (find_none _ _ Ef b).
Qed.

Lemma find_unique {A} k (l : list (string * A)) v : NoDup (map fst l) -> (In (k, v) l <-> find k l = Some v).
Proof.
  intro ND. split; [|apply find_in]. induction l as [|[k' v'] l IH]; [contradiction|]. cbn in ND. inversion ND as [|? ? Hn ND']; subst. cbn. intros [E|Hin].
  - assert (k' = k) by congruence. assert (v' = v) by congruence. subst. now rewrite String.eqb_refl.
  - destruct (String.eqb_spec k k') as [->|]; auto. destruct Hn. now apply (in_map fst) in Hin.
Qed.

(** The entries with a name, file by file *)
Lemma with_key_app k l l' : with_key k (l ++ l') = with_key k l ++ with_key k l'.
Proof. unfold with_key. now rewrite filter_app, map_app. Qed.
Lemma with_key_ckpt k i ps : NoDup (map fst ps) -> with_key k (map (fun p => (fst p, (i, snd p))) ps) = match find k ps with Some a => [(i, a)] | None => [] end.
Proof.
  induction ps as [|[k' a] ps IH]; intro ND; [reflexivity|]. cbn in ND. inversion ND as [|? ? Hn ND']; subst. unfold with_key. cbn [map filter fst snd find]. destruct (String.eqb_spec k k') as [->|].
  - cbn [map snd]. f_equal. fold (with_key k' (map (fun p => (fst p, (i, snd p))) ps)). rewrite IH by auto. destruct (find k' ps) eqn:E; auto. apply find_in in E. destruct Hn. now apply (in_map fst) in E.
  - fold (with_key k (map (fun p => (fst p, (i, snd p))) ps)). now apply IH.
Qed.
Lemma with_key_entries k (f : loc -> Qc) : forall cs o, Forall names_ok cs -> (forall i c a, nth_error cs i = Some c -> f (o + i, a) = value c a) ->
  map f (with_key k (entries (combine (seq o (length cs)) cs))) = somes (map (param k) cs).
Proof.
  induction cs as [|c cs IH]; intros o Hn Hf; [reflexivity|]. inversion Hn; subst. cbn [length seq combine entries flat_map map]. fold (entries (combine (seq (S o) (length cs)) cs)).
  rewrite with_key_app, map_app. cbn [fst snd]. rewrite with_key_ckpt by auto. rewrite (IH (S o)) by (auto; intros i c' a Hi; rewrite <- (Hf (S i) c' a Hi); f_equal; f_equal; lia).
  cbn [somes]. assert (Ep : param k c = option_map (value c) (find k (params c))) by reflexivity. rewrite Ep. destruct (find k (params c)) as [a|]; cbn [option_map map app]; auto.
  assert (Ha : f (o, a) = value c a) by (rewrite <- (Hf 0 c a eq_refl); f_equal; f_equal; lia). now rewrite Ha.
Qed.
Lemma entries_nodup : forall cs o, Forall not_shared cs -> NoDup (map snd (entries (combine (seq o (length cs)) cs))) /\ forall l, In l (map snd (entries (combine (seq o (length cs)) cs))) -> o <= fst l.
Proof.
  induction cs as [|c cs IH]; intros o Hn; [split; [constructor|contradiction]|]. inversion Hn; subst. cbn [length seq combine entries flat_map map]. fold (entries (combine (seq (S o) (length cs)) cs)).
  rewrite map_app, map_map. cbn [fst snd]. destruct (IH (S o)) as [I1 I2]; auto. split.
  - apply NoDup_app_intro2; auto.
    + unfold not_shared in H1. change (NoDup (map (fun x : string * nat => (o, snd x)) (params c))). rewrite <- (map_map snd (fun a => (o, a))). apply FinFun.Injective_map_NoDup; auto. intros x y E. congruence.
    + intros l Hl Hl2. apply in_map_iff in Hl. destruct Hl as (p & <- & _). apply I2 in Hl2. cbn in Hl2. lia.
  - intros l Hl. apply in_app_or in Hl. destruct Hl as [Hl|Hl]; [apply in_map_iff in Hl; destruct Hl as (p & <- & _); cbn; lia|]. apply I2 in Hl. lia.
Qed.

Lemma merge_params cs k : Forall names_ok cs -> Forall not_shared cs -> find k (r_params (merge cs)) = average k cs /\ NoDup (map fst (r_params (merge cs))).
Proof.
  intros Hn Hs. unfold merge. set (mem0 := fun l : loc => match nth_error cs (fst l) with Some c => value c (snd l) | None => Q2Qc 0 end).
  cbn zeta. cbn [r_params]. set (s := fold_left add_ckpt _ _).
  assert (C : core s = fold_left add_entry (entries (combine (seq 0 (length cs)) cs)) (mem0, [], fun _ => 0)) by (unfold s; rewrite add_ckpts_core; reflexivity).
  pose proof (entries_inv mem0 (entries (combine (seq 0 (length cs)) cs)) (proj1 (entries_nodup cs 0 Hs))) as I. rewrite <- C in I. unfold core in I.
  destruct I as (In_ & Ino & Isum & _ & _ & Ind). split; [|now rewrite map_map].
  assert (W : map mem0 (with_key k (entries (combine (seq 0 (length cs)) cs))) = somes (map (param k) cs)).
  { apply with_key_entries; auto. intros i c a Hi. unfold mem0. cbn. now rewrite Hi. }
  assert (Fm : forall g (l : list (string * loc)), find k (map (fun kl => (fst kl, g kl : Qc)) l) = match find k l with Some v => Some (g (k, v)) | None => None end).
  { intros g l. induction l as [|[k' v] l IH]; cbn; auto. destruct (String.eqb_spec k k') as [->|]; auto. }
  rewrite Fm. unfold average. rewrite <- W. destruct (find k (model s)) as [l|] eqn:E.
  - destruct (Isum k l E) as [Hm Hin]. cbn [fst snd]. rewrite Hm, In_. destruct (with_key k (entries (combine (seq 0 (length cs)) cs))) as [|x xs]; [contradiction|]. cbn [map length]. now rewrite map_length.
  - rewrite (Ino k E). reflexivity.
Qed.

(** The rest *)
Lemma take_max_largest l : fold_left take_max l None = largest l.
Proof.
  assert (H : forall l a, fold_left take_max l (Some a) = Some (Nat.max a (list_max (somes l)))).
  { clear. induction l as [|[b|] l IH]; intro a; cbn [fold_left take_max somes]; [cbn; now rewrite Nat.max_0_r| |apply IH]. rewrite IH. f_equal. change (list_max (b :: somes l)) with (Nat.max b (list_max (somes l))). lia. }
  unfold largest. induction l as [|[b|] l IH]; cbn [fold_left take_max somes]; auto. rewrite H. reflexivity.
Qed.
Lemma merge_rest cs : r_epoch (merge cs) = largest (map epoch cs) /\ r_step (merge cs) = largest (map step cs) /\
  r_epochs (merge cs) = flat_map (fun c => merged_epochs c ++ [epoch c]) cs /\ r_steps (merge cs) = flat_map (fun c => merged_steps c ++ [step c]) cs /\
  r_others (merge cs) = fold_left add_other (flat_map others cs) [].
Proof.
  rewrite <- !take_max_largest. unfold merge. cbn zeta. cbn [r_epoch r_step r_epochs r_steps r_others].
  set (s0 := State _ _ _ _ _ _ _ _).
  enough (H : forall cs o s, let s' := fold_left add_ckpt (combine (seq o (length cs)) cs) s in
    o_epoch s' = fold_left take_max (map epoch cs) (o_epoch s) /\ o_step s' = fold_left take_max (map step cs) (o_step s) /\
    o_epochs s' = o_epochs s ++ flat_map (fun c => merged_epochs c ++ [epoch c]) cs /\ o_steps s' = o_steps s ++ flat_map (fun c => merged_steps c ++ [step c]) cs /\
    o_others s' = fold_left add_other (flat_map others cs) (o_others s)) by exact (H cs 0 s0).
  clear. induction cs as [|c cs IH]; intros o s; cbn [length seq combine fold_left map flat_map]; [rewrite !app_nil_r; repeat split|].
  destruct (IH (S o) (add_ckpt s (o, c))) as (H1 & H2 & H3 & H4 & H5). cbn zeta. rewrite H1, H2, H3, H4, H5. unfold add_ckpt.
  destruct (add_params_core o (params c) s) as (_ & G1 & G2 & G3 & G4 & G5). cbn [o_epoch o_step o_epochs o_steps o_others]. rewrite G1, G2, G3, G4, G5, fold_left_app, <- !app_assoc. repeat split.
Qed.
Lemma others_first k l : find k (fold_left add_other l []) = find k l.
Proof.
  enough (H : forall l a, find k (fold_left add_other l a) = match find k a with Some v => Some v | None => find k l end) by apply (H l []).
  clear l. induction l as [|[k' v] l IH]; intro a; cbn [fold_left find]; [now destruct (find k a)|]. rewrite IH. unfold add_other. cbn [fst].
  destruct (find k' a) eqn:E'.
  - destruct (find k a) eqn:E; auto. destruct (String.eqb_spec k k') as [->|]; [congruence|auto].
  - rewrite find_app. cbn. destruct (find k a); auto. destruct (String.eqb k k'); auto.
Qed.
