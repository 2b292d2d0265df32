From Coq Require Import List ZArith QArith String Bool Lia Permutation Setoid Qfield.
From Verif Require Import Base PyDict ListLemmas ScoreModel ScoreSpec.
Import ListNotations.
Open Scope Q_scope.

Lemma qsum_app a b : qsum (a ++ b) == qsum a + qsum b.
Proof. induction a as [|x a IH]; cbn [app qsum]; [ring|rewrite IH; ring]. Qed.

Lemma qsum_perm a b : Permutation a b -> qsum a == qsum b.
Proof.
  induction 1; cbn [qsum]; [reflexivity|rewrite IHPermutation; reflexivity|ring|].
  rewrite IHPermutation1; assumption.
Qed.

Lemma dsum_val l : d_val (dsum l) = qsum (map d_val l).
Proof. induction l as [|x l IH]; cbn [dsum map qsum dadd d_val]; [reflexivity|rewrite IH; reflexivity]. Qed.

Lemma dsum_der l i : d_der (dsum l) i = qsum (map (fun e => d_der e i) l).
Proof. induction l as [|x l IH]; cbn [dsum map qsum dadd d_der]; [reflexivity|unfold gadd; rewrite IH; reflexivity]. Qed.

Lemma qsum_ones {A} (l : list A) : qsum (map (fun _ => 1) l) == inject_Z (Z.of_nat (List.length l)).
Proof.
  induction l as [|x l IH]; cbn [map qsum List.length]; [reflexivity|].
  rewrite IH, Nat2Z.inj_succ. unfold Z.succ. rewrite inject_Z_plus. ring.
Qed.

Lemma inv_norm_factors l : inv_norm l == qsum (factors l).
Proof.
  unfold inv_norm, factors. destruct (l_custom l); [reflexivity|]. unfold num. rewrite qsum_ones. reflexivity.
Qed.

Lemma mark_all_ok ls d r :
  mark_all d ls = Ok r -> NoDup (map fst d) -> r = d ++ ls /\ NoDup (map fst r).
Proof.
  revert d. induction ls as [|[k l] ls IH]; intros d; cbn [mark_all].
  - intros H Hd. apply Ok_inj in H. subst. rewrite app_nil_r. auto.
  - destruct (dhas d k) eqn:E; [discriminate|]. intros H Hd.
    destruct (IH _ H) as [-> Hn].
    + rewrite map_app. cbn [map fst]. apply NoDup_app_intro2; [exact Hd|repeat constructor; auto|].
      intros x Hx [<-|[]]. unfold dhas in E. clear -Hx E. induction d as [|[a v] d IH]; [exact Hx|].
      cbn [dget] in E. destruct (keqb a k) eqn:Ek; [discriminate|]. destruct Hx as [Hx|Hx]; [|auto].
      cbn in Hx. subst a. rewrite keqb_refl in Ek. discriminate.
    + rewrite <- app_assoc in *. auto.
Qed.

Lemma dget_In {V} (d : list (string * V)) k v : dget d k = Some v -> In (k, v) d.
Proof.
  induction d as [|[a w] d IH]; cbn [dget]; [discriminate|]. destruct (keqb a k) eqn:E.
  - apply keqb_eq in E. intros H. injection H as <-. subst. left. reflexivity.
  - right. auto.
Qed.

Lemma dget_nodup {V} (d : list (string * V)) k v : NoDup (map fst d) -> In (k, v) d -> dget d k = Some v.
Proof.
  induction d as [|[a w] d IH]; [intros _ []|]. cbn [map fst dget]. intros Hn H. inversion Hn as [|? ? Ha Hd]; subst.
  destruct H as [H|H].
  - injection H as -> ->. rewrite keqb_refl. reflexivity.
  - destruct (keqb a k) eqn:E; [|auto]. apply keqb_eq in E. subst. destruct Ha. apply (in_map fst) in H. exact H.
Qed.

Lemma dget_none {V} (d : list (string * V)) k : dget d k = None <-> ~ In k (map fst d).
Proof.
  induction d as [|[a w] d IH]; cbn [dget map fst]; [tauto|]. destruct (keqb a k) eqn:E.
  - apply keqb_eq in E. subst. split; [discriminate|]. intros H. destruct H. left. reflexivity.
  - apply keqb_neq in E. rewrite IH. split; [intros H [Hx|Hx]; congruence|intros H Hx; apply H; right; exact Hx].
Qed.

Lemma dset_keys {V} (d : list (string * V)) k v x : In x (map fst (dset d k v)) <-> In x (map fst d) \/ x = k.
Proof.
  induction d as [|[a w] d IH]; cbn [dset map fst In]; [intuition auto|].
  destruct (keqb a k) eqn:E; cbn [map fst In].
  - apply keqb_eq in E. subst. intuition auto.
  - rewrite IH. intuition auto.
Qed.

Lemma dset_nodup {V} (d : list (string * V)) k v : NoDup (map fst d) -> NoDup (map fst (dset d k v)).
Proof.
  induction d as [|[a w] d IH]; cbn [dset map fst]; intros H; [repeat constructor; auto|].
  inversion H as [|? ? Ha Hd]; subst. destruct (keqb a k) eqn:E; cbn [map fst].
  - constructor; auto.
  - constructor; [|auto]. rewrite dset_keys. intros [Hx|Hx]; [auto|]. apply keqb_neq in E. congruence.
Qed.

Lemma iadd_nodup {V} (add : V -> V -> V) zero a b : NoDup (map fst a) -> NoDup (map fst (iadd add zero a b)).
Proof. unfold iadd. revert a. induction b as [|p b IH]; intros a H; cbn [fold_left]; [exact H|]. apply IH, dset_nodup, H. Qed.

Lemma iadd_get {V} (add : V -> V -> V) zero a b k : NoDup (map fst b) ->
  dget (iadd add zero a b) k =
  match dget b k with
  | Some v => Some (add (match dget a k with Some x => x | None => zero end) v)
  | None => dget a k
  end.
Proof.
  unfold iadd. revert a. induction b as [|[n v] b IH]; intros a H; cbn [fold_left fst snd]; [reflexivity|].
  inversion H as [|? ? Hn Hb]; subst. rewrite IH by exact Hb. rewrite dget_dset. cbn [dget].
  destruct (keqb n k) eqn:E.
  - apply keqb_eq in E. subst. apply dget_none in Hn. rewrite Hn. reflexivity.
  - reflexivity.
Qed.

Lemma div_ok a b r : div a b = Ok r ->
  map fst r = map fst a /\
  forall k q, In (k, q) r -> exists x, In (k, x) a /\ let y := match dget b k with Some y => y | None => 1 end in
    ~ y == 0 /\ q = x / y.
Proof.
  unfold div. revert r. induction a as [|[k x] a IH]; cbn [mapM fst snd]; intros r H.
  - apply Ok_inj in H. subst. split; [reflexivity|]. intros ? ? [].
  - apply bind_Ok in H as (p & Hp & H). apply bind_Ok in H as (r' & Hr & H). apply Ok_inj in H. subst r.
    destruct (IH r' Hr) as [E Hi].
    destruct (Qeq_bool _ 0) eqn:Ez in Hp; [discriminate|]. apply Ok_inj in Hp. subst p. split; [cbn [map fst]; congruence|].
    intros n q [Hq|Hq].
    + injection Hq as <- <-. exists x. split; [left; reflexivity|]. split; [|reflexivity].
      intros Hy. apply Qeq_bool_iff in Hy. congruence.
    + destruct (Hi n q Hq) as (x' & Hx & Hy). exists x'. split; [right; exact Hx|exact Hy].
Qed.

Lemma div_is_ok a b :
  (forall k, In k (map fst a) -> ~ match dget b k with Some y => y | None => 1 end == 0) -> exists r, div a b = Ok r.
Proof.
  unfold div. induction a as [|[k x] a IH]; cbn [mapM fst snd map]; intros H; [eauto|].
  destruct (Qeq_bool (match dget b k with Some y => y | None => 1 end) 0) eqn:E.
  - apply Qeq_bool_iff in E. destruct (H k (or_introl eq_refl)). exact E.
  - cbn [bind]. destruct IH as [r Hr]; [intros n Hn; apply H; right; exact Hn|]. rewrite Hr. cbn [bind]. eauto.
Qed.

Lemma dget_map {V U} (f : V -> U) (d : list (string * V)) k :
  dget (map (fun p => (fst p, f (snd p))) d) k = option_map f (dget d k).
Proof. induction d as [|[a w] d IH]; cbn [map dget fst snd]; [reflexivity|]. destruct (keqb a k); [reflexivity|exact IH]. Qed.

Lemma named_app k s1 s2 : named k (s1 ++ s2) = named k s1 ++ named k s2.
Proof. unfold named. rewrite concat_app, filter_app, map_app. reflexivity. Qed.

Lemma named_one k ls : NoDup (map fst ls) -> named k [ls] = match dget ls k with Some l => [l] | None => [] end.
Proof.
  unfold named. cbn [concat]. rewrite app_nil_r. induction ls as [|[n l] ls IH]; cbn [map fst filter dget]; [reflexivity|].
  intros H. inversion H as [|? ? Hn Hl]; subst. change (keqb n k) with (String.eqb n k).
  destruct (String.eqb n k) eqn:E.
  - apply String.eqb_eq in E. subst. cbn [map snd]. rewrite IH by exact Hl. apply dget_none in Hn. rewrite Hn. reflexivity.
  - apply IH, Hl.
Qed.

(* the accumulated numbers of the steps so far *)
Definition acc (k : string) (steps : list (list (string * loss))) (l n : list (string * Q)) : Prop :=
  match dget l k, dget n k with
  | Some x, Some y => marked_in k steps /\ x == loss_sum k steps /\ y == norm_sum k steps
  | None, None => ~ marked_in k steps
  | _, _ => False
  end.

Lemma not_marked k steps : ~ marked_in k steps -> named k steps = [].
Proof.
  intros H. unfold named. destruct (filter (fun p => String.eqb (fst p) k) (concat steps)) as [|p r] eqn:E; [reflexivity|].
  exfalso. assert (Hp : In p (filter (fun p => String.eqb (fst p) k) (concat steps))) by (rewrite E; left; reflexivity).
  apply filter_In in Hp as [Hp Ek]. apply H. apply in_concat in Hp as (ls & Hl & Hp). exists ls. split; [exact Hl|].
  apply String.eqb_eq in Ek. subst. apply in_map, Hp.
Qed.

Lemma acc_step k steps l n ls v u :
  acc k steps l n -> NoDup (map fst ls) -> NoDup (map fst v) -> NoDup (map fst u) ->
  dget v k = option_map (fun x => d_val (summed_loss x)) (dget ls k) ->
  dget u k = option_map inv_norm (dget ls k) ->
  acc k (steps ++ [ls]) (iadd Qplus 0 l v) (iadd Qplus 0 n u).
Proof.
  intros H Hls Hv Hu Ev Eu. unfold acc in *. rewrite !iadd_get by assumption. rewrite Ev, Eu.
  assert (S : loss_sum k (steps ++ [ls]) ==
              loss_sum k steps + match dget ls k with Some x => d_val (summed_loss x) | None => 0 end).
  { unfold loss_sum. rewrite named_app, flat_map_app, map_app, qsum_app, named_one by exact Hls.
    destruct (dget ls k); cbn [flat_map map qsum]; [|ring]. rewrite app_nil_r. unfold summed_loss.
    rewrite dsum_val. reflexivity. }
  assert (N : norm_sum k (steps ++ [ls]) ==
              norm_sum k steps + match dget ls k with Some x => inv_norm x | None => 0 end).
  { unfold norm_sum. rewrite named_app, flat_map_app, qsum_app, named_one by exact Hls.
    destruct (dget ls k); cbn [flat_map qsum]; [|ring]. rewrite app_nil_r, inv_norm_factors. reflexivity. }
  assert (M : marked_in k (steps ++ [ls]) <-> marked_in k steps \/ dget ls k <> None).
  { rewrite dget_none. unfold marked_in. split.
    - intros (x & Hx & Hk). apply in_app_or in Hx as [Hx|[<-|[]]]; [left; eauto|right; tauto].
    - intros [(x & Hx & Hk)|Hk]; [exists x; split; [apply in_or_app; auto|exact Hk]|].
      exists ls. split; [apply in_or_app; right; left; reflexivity|].
      destruct (in_dec string_dec k (map fst ls)); [assumption|tauto]. }
  destruct (dget ls k) as [x|] eqn:E; cbn [option_map].
  - split; [apply M; right; discriminate|]. rewrite S, N.
    destruct (dget l k), (dget n k); try contradiction.
    + destruct H as (_ & -> & ->). split; reflexivity.
    + unfold loss_sum, norm_sum. rewrite not_marked by exact H. cbn [flat_map map qsum]. split; ring.
  - destruct (dget l k), (dget n k); try contradiction.
    + destruct H as (Hm & -> & ->). split; [tauto|]. rewrite S, N. split; ring.
    + rewrite M. tauto.
Qed.

Lemma values_get ls k : dget (values ls) k = option_map (fun x => d_val (summed_loss x)) (dget ls k).
Proof. exact (dget_map (fun x => d_val (summed_loss x)) ls k). Qed.
Lemma norms_get ls k : dget (norms ls) k = option_map inv_norm (dget ls k).
Proof. exact (dget_map inv_norm ls k). Qed.
Lemma values_keys ls : map fst (values ls) = map fst ls.
Proof. unfold values. rewrite map_map. reflexivity. Qed.
Lemma norms_keys ls : map fst (norms ls) = map fst ls.
Proof. unfold norms. rewrite map_map. reflexivity. Qed.

Lemma acc_average k steps l n q :
  acc k steps l n -> NoDup (map fst l) -> forall sc, div l n = Ok sc -> In (k, q) sc -> is_average k steps q.
Proof.
  intros H Hn sc Hd Hi. apply div_ok in Hd as [_ Hd]. destruct (Hd k q Hi) as (x & Hx & Hy & ->).
  apply (dget_nodup _ _ _ Hn) in Hx. unfold acc in H. rewrite Hx in H.
  destruct (dget n k) as [y|]; [|contradiction]. destruct H as (_ & Ex & Ey).
  rewrite Ey in Hy. split; [exact Hy|]. rewrite Ex, Ey. field. exact Hy.
Qed.

Lemma acc_keys k steps l n sc :
  acc k steps l n -> div l n = Ok sc -> (In k (map fst sc) <-> marked_in k steps).
Proof.
  intros H Hd. apply div_ok in Hd as [E _]. rewrite E. clear E sc. unfold acc in H.
  destruct (dget l k) as [x|] eqn:E.
  - apply dget_In, (in_map fst) in E. destruct (dget n k); [tauto|contradiction].
  - apply dget_none in E. cbn [fst] in E. destruct (dget n k); [contradiction|tauto].
Qed.

Section Engine.
Context {W B : Type}.
Variable marked : W -> B -> list (string * loss).

Lemma eval_acc w bs steps l n l' n' :
  (forall k, acc k steps l n) -> NoDup (map fst l) -> eval_steps marked w bs l n = Ok (l', n') ->
  (forall k, acc k (steps ++ map (marked w) bs) l' n') /\ NoDup (map fst l').
Proof.
  revert steps l n. induction bs as [|b bs IH]; intros steps l n Ha Hl H; cbn [eval_steps] in H.
  - apply Ok_inj in H. injection H as <- <-. cbn [map]. rewrite app_nil_r. auto.
  - apply bind_Ok in H as (ls & Hls & H). apply bind_Ok in H as (_ & _ & H).
    apply mark_all_ok in Hls as [E Hnd]; [|constructor]. cbn [app] in E. subst ls.
    cbn [map]. replace (steps ++ marked w b :: map (marked w) bs) with ((steps ++ [marked w b]) ++ map (marked w) bs)
      by (rewrite <- app_assoc; reflexivity).
    refine (IH _ _ _ _ _ H); [|apply iadd_nodup, Hl].
    intros k. apply acc_step; auto using values_get, norms_get; rewrite ?values_keys, ?norms_keys; exact Hnd.
Qed.

Lemma acc_empty k : acc k [] [] [].
Proof. unfold acc. cbn. intros (ls & [] & _). Qed.

Lemma eval_scores w bs sc :
  eval_model marked w bs = Ok sc ->
  bs <> [] /\ NoDup (map fst sc) /\ (forall k, In k (map fst sc) <-> marked_in k (map (marked w) bs)) /\
  forall k q, In (k, q) sc -> is_average k (map (marked w) bs) q.
Proof.
  unfold eval_model. intros H. apply bind_Ok in H as ([l n] & Hs & H). apply bind_Ok in H as (u0 & Ha & Hd).
  cbn [fst snd] in Hd. destruct (eval_acc _ _ _ _ _ _ _ acc_empty (NoDup_nil _) Hs) as [A N]. cbn [app] in A.
  split; [|split; [|split]].
  - intros ->. discriminate.
  - destruct (div_ok _ _ _ Hd) as [-> _]. exact N.
  - intros k. apply (acc_keys k _ l n); auto.
  - intros k q Hq. eapply acc_average; eauto.
Qed.

Lemma mark_all_is_ok ls d : NoDup (map fst (d ++ ls)) -> mark_all d ls = Ok (d ++ ls).
Proof.
  revert d. induction ls as [|[k l] ls IH]; intros d H; cbn [mark_all]; [rewrite app_nil_r; reflexivity|].
  assert (E : dhas d k = false).
  { unfold dhas. replace (dget d k) with (@None loss); [reflexivity|]. symmetry. apply dget_none. intros Hk.
    rewrite map_app in H. eapply NoDup_disj; [exact H|exact Hk|left; reflexivity]. }
  rewrite E. rewrite IH by (rewrite <- app_assoc; exact H). rewrite <- app_assoc. reflexivity.
Qed.

(* it works when all norm factors are positive *)
Lemma eval_steps_ok w bs l n :
  (forall k, match dget n k with Some y => 0 < y | None => True end) ->
  Forall (fun b => NoDup (map fst (marked w b)) /\ Forall (fun p => 0 < inv_norm (snd p)) (marked w b)) bs ->
  exists l' n', eval_steps marked w bs l n = Ok (l', n') /\ forall k, match dget n' k with Some y => 0 < y | None => True end.
Proof.
  revert l n. induction bs as [|b bs IH]; intros l n Hn H; cbn [eval_steps]; [eauto|].
  inversion H as [|? ? [Hd Hp] Hr]; subst. rewrite mark_all_is_ok by exact Hd. cbn [app bind].
  assert (P : forall k y, dget (norms (marked w b)) k = Some y -> 0 < y).
  { intros k y Hy. rewrite norms_get in Hy. destruct (dget (marked w b) k) as [x|] eqn:E; [|discriminate].
    injection Hy as <-. apply dget_In in E. rewrite Forall_forall in Hp. apply (Hp _ E). }
  destruct (div_is_ok (values (marked w b)) (norms (marked w b))) as [r Hr'].
  - intros k _. destruct (dget (norms (marked w b)) k) as [y|] eqn:E; [|discriminate].
    apply P in E. intros Hz. rewrite Hz in E. discriminate.
  - rewrite Hr'. cbn [bind]. apply IH; [|exact Hr]. intros k. rewrite iadd_get by (rewrite norms_keys; exact Hd).
    destruct (dget (norms (marked w b)) k) as [y|] eqn:E; [|apply Hn]. apply P in E. specialize (Hn k).
    destruct (dget n k) as [z|]; [|rewrite Qplus_0_l; exact E].
    rewrite <- (Qplus_0_l 0). apply Qplus_lt_le_compat; [exact Hn|apply Qlt_le_weak, E].
Qed.

Lemma eval_ok w bs :
  bs <> [] -> Forall (fun b => NoDup (map fst (marked w b)) /\ Forall (fun p => 0 < inv_norm (snd p)) (marked w b)) bs ->
  exists sc, eval_model marked w bs = Ok sc.
Proof.
  intros Hb H. unfold eval_model. destruct (eval_steps_ok w bs [] [] (fun _ => I) H) as (l & n & E & Hn).
  rewrite E. cbn [bind fst snd]. destruct bs; [congruence|]. cbn [List.length Nat.eqb negb assert_ bind].
  apply div_is_ok. intros k _. specialize (Hn k). destruct (dget n k); [|discriminate].
  intros Hz. rewrite Hz in Hn. discriminate.
Qed.

(* ---- training ---- *)

Lemma scaled_der l i : d_der (scaled_loss l) i == loss_grad l i.
Proof.
  unfold scaled_loss, loss_grad. cbn [dscale d_der]. destruct (l_normalized l).
  - unfold mean_loss. cbn [dscale d_der]. unfold summed_loss. rewrite dsum_der, inv_norm_factors. unfold Qdiv. ring.
  - unfold summed_loss. rewrite dsum_der. field.
Qed.

Lemma used_eq l : Qeq_bool (l_scale l) 0 || l_error l = negb (used l).
Proof. unfold used. destruct (Qeq_bool (l_scale l) 0), (l_error l); reflexivity. Qed.

Lemma add_losses_some t ls : exists t', add_losses (Some t) ls = Some t' /\
  forall i, d_der t' i == d_der t i + step_grad ls i.
Proof.
  revert t. induction ls as [|[k l] ls IH]; intros t; cbn [add_losses].
  - exists t. split; [reflexivity|]. intros i. unfold step_grad. cbn [map filter qsum]. ring.
  - rewrite used_eq. destruct (used l) eqn:E; cbn [negb].
    + destruct (IH (dadd t (scaled_loss l))) as (t' & E' & H). exists t'. split; [exact E'|]. intros i. rewrite H.
      cbn [dadd d_der]. unfold gadd, step_grad. cbn [map snd filter]. rewrite E. cbn [map qsum]. rewrite scaled_der. ring.
    + destruct (IH t) as (t' & E' & H). exists t'. split; [exact E'|]. intros i. rewrite H.
      unfold step_grad. cbn [map snd filter]. rewrite E. reflexivity.
Qed.

Lemma add_losses_none ls t : add_losses None ls = Some t -> forall i, d_der t i == step_grad ls i.
Proof.
  revert t. induction ls as [|[k l] ls IH]; intros t; cbn [add_losses]; [discriminate|].
  rewrite used_eq. intros H i. unfold step_grad. cbn [map snd filter]. destruct (used l) eqn:E; cbn [negb] in H.
  - destruct (add_losses_some (scaled_loss l) ls) as (t' & E' & Ht). rewrite E' in H. injection H as <-.
    rewrite Ht. cbn [map qsum]. rewrite scaled_der. reflexivity.
  - apply IH, H.
Qed.

Variable update : nat -> W -> grad -> W.
Variable accum : nat -> Z.
Variable grad_norm : option (string * (grad -> Q)).
Hypothesis update_eq : forall s w g g', (forall i, g i == g' i) -> update s w g = update s w g'.

Definition pending_ok (s : state W) (pending : list (batch B)) : Prop :=
  if s_zero s then pending = []
  else s_count s = Z.of_nat (List.length pending) /\ forall i, s_grad s i == group_grad marked (s_w s) pending i.

Definition log_key (k : string) : Prop := match grad_norm with Some (n, _) => k = n | None => False end.

Lemma group_grad_snoc w p b i :
  group_grad marked w (p ++ [b]) i == group_grad marked w p i + step_grad (marked w (b_data b)) i.
Proof. unfold group_grad. rewrite map_app, qsum_app. cbn [map qsum]. ring. Qed.

Lemma train_step_ok s b s' pending steps :
  train_step marked update accum grad_norm s b = Ok s' -> pending_ok s pending ->
  (forall k, ~ log_key k -> acc k steps (s_losses s) (s_norms s)) -> NoDup (map fst (s_losses s)) ->
  s_step s' = S (s_step s) /\
  (if (accum (s_step s) <=? Z.of_nat (List.length (pending ++ [b])))%Z
   then s_w s' = update (s_step s) (s_w s) (group_grad marked (s_w s) (pending ++ [b])) /\ pending_ok s' []
   else s_w s' = s_w s /\ pending_ok s' (pending ++ [b])) /\
  (forall k, ~ log_key k -> acc k (steps ++ [marked (s_w s) (b_data b)]) (s_losses s') (s_norms s')) /\
  NoDup (map fst (s_losses s')).
Proof.
  unfold train_step. intros H Hp Ha Hn. apply bind_Ok in H as (ls & Hls & H).
  apply mark_all_ok in Hls as [E Hnd]; [|constructor]. cbn [app] in E. subst ls.
  set (ls := marked (s_w s) (b_data b)) in *.
  apply bind_Ok in H as (t0 & Ht0 & H). apply bind_Ok in H as (t & Ht & H).
  assert (Et : forall i, d_der t i == step_grad ls i).
  { destruct t0 as [t1|]; [|discriminate]. apply Ok_inj in Ht. subst t1. unfold total_loss in Ht0.
    destruct ls as [|p r] eqn:El; [discriminate|]. apply Ok_inj in Ht0. apply add_losses_none, Ht0. }
  apply bind_Ok in H as (extra & Hx & H). apply bind_Ok in H as (_ & _ & H). apply Ok_inj in H.
  assert (Ec : ((if s_zero s then 0 else s_count s) + 1 = Z.of_nat (List.length (pending ++ [b])))%Z).
  { rewrite app_length. cbn [List.length]. unfold pending_ok in Hp. destruct (s_zero s); [subst pending; reflexivity|].
    destruct Hp as [-> _]. lia. }
  assert (Eg : forall i, gadd (if s_zero s then gzero else s_grad s) (d_der t) i == group_grad marked (s_w s) (pending ++ [b]) i).
  { intros i. rewrite group_grad_snoc. unfold gadd. rewrite Et. unfold pending_ok in Hp. destruct (s_zero s).
    - subst pending. reflexivity.
    - destruct Hp as [_ Hp]. rewrite Hp. reflexivity. }
  rewrite Ec in *. subst s'. cbn [s_step s_w s_zero s_count s_grad s_losses s_norms].
  split; [reflexivity|]. split; [|split].
  - destruct (_ <=? _)%Z eqn:Ea.
    + split; [apply update_eq, Eg|]. unfold pending_ok. cbn [s_zero]. reflexivity.
    + split; [reflexivity|]. unfold pending_ok. cbn [s_zero s_count s_grad s_w]. split; [reflexivity|exact Eg].
  - assert (X : (extra = [] \/ exists n f g q, grad_norm = Some (n, f) /\ extra = [(n, g, q)] /\ dhas ls n = false)).
    { destruct grad_norm as [[n f]|]; [|apply Ok_inj in Hx; left; congruence].
      destruct (_ <=? _)%Z; [|apply Ok_inj in Hx; left; congruence].
      destruct (dhas ls n) eqn:Ed; [discriminate|]. apply Ok_inj in Hx. right. eauto 8. }
    intros k Hk. apply acc_step; [apply Ha, Hk|exact Hnd| | | |].
    + rewrite map_app, values_keys. destruct X as [-> |(n & f & g & q & _ & -> & Hd)]; cbn [map fst snd].
      * rewrite app_nil_r. exact Hnd.
      * apply NoDup_app_intro2; [exact Hnd|repeat constructor; auto|]. intros x Hx' [<-|[]].
        unfold dhas in Hd. destruct (dget ls n) eqn:E; [discriminate|]. apply dget_none in E. auto.
    + rewrite map_app, norms_keys. destruct X as [-> |(n & f & g & q & _ & -> & Hd)]; cbn [map fst snd].
      * rewrite app_nil_r. exact Hnd.
      * apply NoDup_app_intro2; [exact Hnd|repeat constructor; auto|]. intros x Hx' [<-|[]].
        unfold dhas in Hd. destruct (dget ls n) eqn:E; [discriminate|]. apply dget_none in E. auto.
    + rewrite <- values_get. destruct X as [-> |(n & f & g & q & En & -> & Hd)]; cbn [map fst snd]; [rewrite app_nil_r; reflexivity|].
      unfold log_key in Hk. rewrite En in Hk. clear -Hk. induction (values ls) as [|[a v] l IH]; cbn [app dget].
      * destruct (keqb n k) eqn:E; [apply keqb_eq in E; congruence|reflexivity].
      * destruct (keqb a k); [reflexivity|exact IH].
    + rewrite <- norms_get. destruct X as [-> |(n & f & g & q & En & -> & Hd)]; cbn [map fst snd]; [rewrite app_nil_r; reflexivity|].
      unfold log_key in Hk. rewrite En in Hk. clear -Hk. induction (norms ls) as [|[a v] l IH]; cbn [app dget].
      * destruct (keqb n k) eqn:E; [apply keqb_eq in E; congruence|reflexivity].
      * destruct (keqb a k); [reflexivity|exact IH].
  - apply iadd_nodup, Hn.
Qed.

Lemma train_steps_ok bs s s' pending steps :
  train_steps marked update accum grad_norm s bs = Ok s' -> pending_ok s pending ->
  (forall k, ~ log_key k -> acc k steps (s_losses s) (s_norms s)) -> NoDup (map fst (s_losses s)) ->
  let r := learn marked update accum (s_step s) (s_w s) pending bs in
  s_w s' = snd r /\
  (forall k, ~ log_key k -> acc k (steps ++ steps_of marked (fst r) bs) (s_losses s') (s_norms s')) /\
  NoDup (map fst (s_losses s')).
Proof.
  revert s pending steps. induction bs as [|b bs IH]; intros s pending steps H Hp Ha Hn; cbn [train_steps learn] in *.
  - apply Ok_inj in H. subst s'. cbn [fst snd]. unfold steps_of. cbn. rewrite app_nil_r. auto.
  - apply bind_Ok in H as (s1 & H1 & H). cbn [fst snd].
    destruct (train_step_ok _ _ _ _ _ H1 Hp Ha Hn) as (Es & Hw & Ha1 & Hn1).
    destruct (_ <=? _)%Z.
    + destruct Hw as [Ew Hp1]. specialize (IH _ _ _ H Hp1 Ha1 Hn1). rewrite Es, Ew in IH.
      destruct IH as (I1 & I2 & I3). split; [exact I1|]. split; [|exact I3]. intros k Hk. specialize (I2 k Hk).
      rewrite <- app_assoc in I2. exact I2.
    + destruct Hw as [Ew Hp1]. specialize (IH _ _ _ H Hp1 Ha1 Hn1). rewrite Es, Ew in IH.
      destruct IH as (I1 & I2 & I3). split; [exact I1|]. split; [|exact I3]. intros k Hk. specialize (I2 k Hk).
      rewrite <- app_assoc in I2. exact I2.
Qed.

Lemma train_epoch_ok step w bs w' sc :
  train_epoch marked update accum grad_norm step w bs = Ok (w', sc) ->
  let r := learn marked update accum step w [] bs in
  w' = snd r /\
  NoDup (map fst sc) /\
  (forall k, ~ log_key k -> (In k (map fst sc) <-> marked_in k (steps_of marked (fst r) bs)) /\
     forall q, In (k, q) sc -> is_average k (steps_of marked (fst r) bs) q).
Proof.
  unfold train_epoch. intros H. apply bind_Ok in H as (s & Hs & H). apply bind_Ok in H as (_ & _ & H).
  apply bind_Ok in H as (sc' & Hd & H). apply Ok_inj in H. injection H as <- <-.
  destruct (train_steps_ok _ _ _ [] [] Hs) as (Ew & Ha & Hn).
  - unfold pending_ok. reflexivity.
  - intros k _. apply acc_empty.
  - constructor.
  - cbn [s_step s_w app] in *. split; [exact Ew|]. split; [destruct (div_ok _ _ _ Hd) as [-> _]; exact Hn|].
    intros k Hk. split; [eapply acc_keys; eauto|]. intros q Hq. eapply acc_average; eauto.
Qed.

End Engine.

Section Groups.
Context {W B : Type}.
Variable marked : W -> B -> list (string * loss).
Variable update : nat -> W -> grad -> W.

Lemma learn_rest n step w p rest :
  (Z.of_nat (List.length p + List.length rest) < n)%Z -> snd (learn marked update (fun _ => n) step w p rest) = w.
Proof.
  revert step p. induction rest as [|b rest IH]; intros step p H; cbn [learn snd]; [reflexivity|].
  rewrite app_length. cbn [List.length] in *. destruct (Z.leb_spec n (Z.of_nat (List.length p + 1))); [lia|].
  apply IH. rewrite app_length. cbn [List.length]. lia.
Qed.

Lemma learn_group n step w p g bs :
  g <> [] -> Z.of_nat (List.length p + List.length g) = n ->
  snd (learn marked update (fun _ => n) step w p (g ++ bs)) =
  snd (learn marked update (fun _ => n) (step + List.length g)
         (update (step + List.length g - 1) w (group_grad marked w (p ++ g))) [] bs).
Proof.
  revert step p. induction g as [|b g IH]; intros step p Hg H; [congruence|]. cbn [app learn snd].
  rewrite app_length. cbn [List.length] in *. destruct g as [|b2 g].
  - cbn [List.length app] in *. destruct (Z.leb_spec n (Z.of_nat (List.length p + 1))); [|lia].
    replace (step + 1 - 1)%nat with step by lia. replace (step + 1)%nat with (S step) by lia. reflexivity.
  - destruct (Z.leb_spec n (Z.of_nat (List.length p + 1))); [cbn [List.length] in *; lia|].
    rewrite IH; [|discriminate|rewrite app_length; cbn [List.length] in *; lia].
    rewrite <- app_assoc. cbn [app List.length]. f_equal. f_equal; [lia|]. f_equal. lia.
Qed.

Lemma learn_groups_ok n step w gs rest :
  (0 < n)%Z -> Forall (fun g => Z.of_nat (List.length g) = n) gs -> (Z.of_nat (List.length rest) < n)%Z ->
  snd (learn marked update (fun _ => n) step w [] (concat gs ++ rest)) = learn_groups marked update step w gs.
Proof.
  intros Hn Hg Hr. revert step w. induction Hg as [|g gs Hg _ IH]; intros step w; cbn [concat learn_groups].
  - cbn [app]. apply learn_rest. exact Hr.
  - rewrite <- app_assoc, learn_group; [|intros ->; cbn in Hg; lia|cbn [List.length]; lia]. cbn [app]. apply IH.
Qed.

End Groups.

Section Seqs.
Context {W S : Type}.
Variable q : seq_losses W S.

Lemma step_grad_join w a b i :
  (forall k, In k (q_names q) -> q_normalized q k = false) ->
  step_grad (of_batch q w (a ++ b)) i == step_grad (of_batch q w a) i + step_grad (of_batch q w b) i.
Proof.
  unfold step_grad, of_batch. induction (q_names q) as [|k ks IH]; intros Hn; [reflexivity|].
  specialize (IH (fun x Hx => Hn x (or_intror Hx))). cbn [map snd filter].
  assert (U : forall e c, used {| l_entries := e; l_scale := q_scale q k; l_error := q_error q k;
    l_normalized := q_normalized q k; l_custom := c |} = negb (Qeq_bool (q_scale q k) 0) && negb (q_error q k)) by reflexivity.
  rewrite !U.
  destruct (negb (Qeq_bool (q_scale q k) 0) && negb (q_error q k)); [|exact IH].
  cbn [map qsum]. rewrite IH. unfold loss_grad. cbn [l_scale l_normalized l_entries].
  rewrite (Hn k (or_introl eq_refl)), flat_map_app, map_app, qsum_app. field.
Qed.

Lemma step_grad_none w i :
  (forall k, In k (q_names q) -> q_normalized q k = false) -> step_grad (of_batch q w []) i == 0.
Proof.
  unfold step_grad, of_batch. induction (q_names q) as [|k ks IH]; intros Hn; [reflexivity|].
  specialize (IH (fun x Hx => Hn x (or_intror Hx))). cbn [map snd filter].
  assert (U : forall e c, used {| l_entries := e; l_scale := q_scale q k; l_error := q_error q k;
    l_normalized := q_normalized q k; l_custom := c |} = negb (Qeq_bool (q_scale q k) 0) && negb (q_error q k)) by reflexivity.
  rewrite !U.
  destruct (negb (Qeq_bool (q_scale q k) 0) && negb (q_error q k)); [|exact IH].
  cbn [map qsum]. rewrite IH. unfold loss_grad. cbn [l_scale l_normalized l_entries flat_map map qsum].
  rewrite (Hn k (or_introl eq_refl)). field.
Qed.

Lemma group_grad_join w (bs : list (batch (list S))) i :
  (forall k, In k (q_names q) -> q_normalized q k = false) ->
  group_grad (of_batch q) w bs i == step_grad (of_batch q w (concat (map b_data bs))) i.
Proof.
  intros Hn. induction bs as [|b bs IH]; cbn [map concat].
  - rewrite step_grad_none by exact Hn. reflexivity.
  - rewrite step_grad_join by exact Hn. rewrite <- IH. reflexivity.
Qed.

Definition seq_factors w k s : list Q :=
  match q_custom q k with Some f => f s | None => map (fun _ => 1) (q_entries q w k s) end.

Lemma named_of_batch w k (seqs : list S) : NoDup (q_names q) -> In k (q_names q) ->
  exists l, named k [of_batch q w seqs] = [l] /\ l_entries l = flat_map (q_entries q w k) seqs /\
    factors l = flat_map (seq_factors w k) seqs.
Proof.
  intros Hn Hk. rewrite named_one.
  2:{ unfold of_batch. rewrite map_map. cbn [fst]. rewrite map_id. exact Hn. }
  unfold of_batch. assert (E : forall (f : string -> loss) ks, In k ks -> dget (map (fun k => (k, f k)) ks) k = Some (f k)).
  { intros f ks. induction ks as [|x ks IH]; [intros []|]. cbn [map dget]. intros [<-|H]; [rewrite keqb_refl; reflexivity|].
    destruct (keqb x k) eqn:Ex; [apply keqb_eq in Ex; subst; reflexivity|apply IH, H]. }
  rewrite E by exact Hk. eexists. split; [reflexivity|]. cbn [l_entries]. split; [reflexivity|].
  unfold factors, seq_factors. cbn [l_custom l_entries]. destruct (q_custom q k); cbn [option_map]; [reflexivity|].
  induction seqs as [|s seqs IH]; cbn [flat_map]; [reflexivity|]. rewrite map_app. f_equal. exact IH.
Qed.

Lemma sums_of_batches w k (bs : list (list S)) : NoDup (q_names q) -> In k (q_names q) ->
  loss_sum k (map (of_batch q w) bs) == qsum (map d_val (flat_map (q_entries q w k) (concat bs))) /\
  norm_sum k (map (of_batch q w) bs) == qsum (flat_map (seq_factors w k) (concat bs)).
Proof.
  intros Hn Hk. induction bs as [|b bs [IH1 IH2]]; cbn [map concat]; [split; reflexivity|].
  change (of_batch q w b :: map (of_batch q w) bs) with ([of_batch q w b] ++ map (of_batch q w) bs).
  destruct (named_of_batch w k b Hn Hk) as (l & E & E1 & E2). unfold loss_sum, norm_sum in *.
  rewrite !named_app, !E, !flat_map_app. cbn [flat_map]. rewrite app_nil_r, E1, E2.
  rewrite !map_app, !qsum_app, IH1, IH2. split; cbn [qsum]; ring.
Qed.

Lemma average_perm w k (b1 b2 : list (list S)) x y : NoDup (q_names q) -> In k (q_names q) ->
  Permutation (concat b1) (concat b2) ->
  is_average k (map (of_batch q w) b1) x -> is_average k (map (of_batch q w) b2) y -> x == y.
Proof.
  intros Hn Hk Hp [Nx Ex] [Ny Ey].
  destruct (sums_of_batches w k b1 Hn Hk) as [L1 N1]. destruct (sums_of_batches w k b2 Hn Hk) as [L2 N2].
  assert (L : loss_sum k (map (of_batch q w) b1) == loss_sum k (map (of_batch q w) b2)).
  { rewrite L1, L2. apply qsum_perm, Permutation_map, Permutation_flat_map, Hp. }
  assert (N : norm_sum k (map (of_batch q w) b1) == norm_sum k (map (of_batch q w) b2)).
  { rewrite N1, N2. apply qsum_perm, Permutation_flat_map, Hp. }
  rewrite L, <- Ey, N in Ex. apply Qmult_inj_r in Ex; [exact Ex|exact Ny].
Qed.

Lemma of_batch_keys w seqs : map fst (of_batch q w seqs) = q_names q.
Proof. unfold of_batch. rewrite map_map. cbn [fst]. apply map_id. Qed.

Lemma of_batch_norm w (seqs : list S) :
  (forall k, In k (q_names q) -> 0 < seqs_norm q w k seqs) ->
  Forall (fun p => 0 < inv_norm (snd p)) (of_batch q w seqs).
Proof.
  intros H. unfold of_batch. apply Forall_map, Forall_forall. intros k Hk. cbn [snd]. rewrite inv_norm_factors.
  specialize (H k Hk). unfold seqs_norm in H. unfold factors. cbn [l_custom l_entries].
  destruct (q_custom q k); cbn [option_map]; [exact H|].
  assert (E : map (fun _ : dual => 1) (flat_map (q_entries q w k) seqs) =
              flat_map (fun s => map (fun _ => 1) (q_entries q w k s)) seqs); [|rewrite E; exact H].
  clear. induction seqs as [|s seqs IH]; cbn [flat_map]; [reflexivity|]. rewrite map_app. f_equal. exact IH.
Qed.

End Seqs.
