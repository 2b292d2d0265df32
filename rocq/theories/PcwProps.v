(** C138: the piecewise linear function of the frontend. Model: PcwModel; vocabulary: SearchSpec. *)
From Coq Require Import QArith Lqa Qabs.
From Verif Require Import Base ListLemmas LrModel LrProofs SearchModel SearchSpec SearchProofs PcwModel PcwProofs.
Local Open Scope nat_scope. Local Open Scope list_scope.

(** With two points or more, it is the line between neighbouring points, for tensors with any number of dims. *)
Theorem C138_between : forall ndim points x k1 v1 k2 v2, distinct_keys points -> In (k1, v1) points -> In (k2, v2) points -> neighbours points k1 k2 -> (k1 <= x <= k2)%Q ->
  exists y, pcw_call ndim points x = Ok (Some y) /\ (y == v1 + (v2 - v1) / (k2 - k1) * (x - k1))%Q.
Proof.
  intros ndim points x k1 v1 k2 v2 Hd I1 I2 Hn Hx. assert (Hl : 2 <= length points).
  { destruct points as [|p [|q l]]; [contradiction| |cbn; lia]. destruct I1 as [->|[]], I2 as [E|[]]. injection E as -> ->. destruct Hn as [Hn _]. exfalso. revert Hn. apply Qlt_irrefl. }
  destruct (pcw_same ndim points x Hd Hl) as (y & y' & E & E' & Hy). destruct (linear_between points x k1 v1 k2 v2 Hd I1 I2 Hn (proj1 Hx) (proj2 Hx)) as (y2 & E2 & Hy2). rewrite E' in E2. injection E2 as <-. exists y. split; [exact E|]. rewrite Hy. exact Hy2.
Qed.
Print Assumptions C138_between.

(** It is constant below the first point and above the last one. *)
Theorem C138_outside : forall ndim points x k v, distinct_keys points -> 2 <= length points -> In (k, v) points ->
  ((x <= k)%Q /\ (forall k' v', In (k', v') points -> (k <= k')%Q)) \/ ((k <= x)%Q /\ (forall k' v', In (k', v') points -> (k' <= k)%Q)) ->
  exists y, pcw_call ndim points x = Ok (Some y) /\ (y == v)%Q.
Proof.
  intros ndim points x k v Hd Hl I H. destruct (pcw_same ndim points x Hd Hl) as (y & y' & E & E' & Hy). exists y. split; [exact E|]. rewrite Hy.
  destruct H as [[H1 H2]|[H1 H2]]; [destruct (linear_left points x k v Hd I H2 H1) as (y2 & E2 & Hy2)|destruct (linear_right points x k v Hd I H2 H1) as (y2 & E2 & Hy2)]; rewrite E' in E2; injection E2 as <-; exact Hy2.
Qed.
Print Assumptions C138_outside.

(** So it is the same function as the one for plain numbers (C34). *)
Theorem C138_same : forall ndim points x, distinct_keys points -> 2 <= length points ->
  exists y y', pcw_call ndim points x = Ok (Some y) /\ linear_call points x = Ok y' /\ (y == y')%Q.
Proof. exact pcw_same. Qed.
Print Assumptions C138_same.

(** The order of the points does not matter. *)
Theorem C138_order : forall ndim points points' x, Permutation points points' -> distinct_keys points -> distinct_keys points' -> 2 <= length points ->
  exists y y', pcw_call ndim points x = Ok (Some y) /\ pcw_call ndim points' x = Ok (Some y') /\ (y == y')%Q.
Proof.
  intros ndim points points' x Hp Hd Hd' Hl. assert (Hl' : 2 <= length points') by (rewrite <- (Permutation_length Hp); exact Hl).
  destruct (pcw_cases ndim points x Hd Hl) as (i & a & b & y & Ea & Eb & Hab & E & H). pose proof (In_sorted _ _ _ Ea) as Ia. pose proof (In_sorted _ _ _ Eb) as Ib. destruct a as [k1 v1], b as [k2 v2]. cbn [fst snd] in *.
  pose proof (sort_items_sorted points Hd) as Hs. pose proof (Permutation_length (sort_items_perm points)) as Hlen.
  assert (Hn : forall k v, In (k, v) points' -> ((k <= k1)%Q \/ (k2 <= k)%Q) /\ (i = 0 -> (k1 <= k)%Q) /\ (S (S i) = length points -> (k <= k2)%Q)).
  { intros k v Hk. destruct (sorted_index points (k, v) (Permutation_in _ (Permutation_sym Hp) Hk)) as (j & Ej). assert (Hj : j < length (sort_items points)) by (apply nth_error_Some; congruence).
    assert (Hle : forall m n km vm kn vn, m <= n -> nth_error (sort_items points) m = Some (km, vm) -> nth_error (sort_items points) n = Some (kn, vn) -> (km <= kn)%Q).
    { intros m n km vm kn vn Hmn Em En. destruct (Nat.eq_dec m n) as [->|N]; [rewrite Em in En; injection En as -> ->; apply Qle_refl|]. apply Qlt_le_weak. apply (sorted_nth _ m n _ _ Hs ltac:(lia) Em En). }
    split; [|split].
    - destruct (le_lt_dec j i) as [L|L]; [left; eapply Hle; [exact L|exact Ej|exact Ea]|right; eapply (Hle (S i) j); [lia|exact Eb|exact Ej]].
    - intros ->. eapply (Hle 0 j); [lia|exact Ea|exact Ej].
    - intros Hi. eapply (Hle j (S i)); [lia|exact Ej|exact Eb]. }
  exists y. pose proof (Permutation_in _ Hp Ia) as Ia'. pose proof (Permutation_in _ Hp Ib) as Ib'.
  destruct H as [(Hi & Hx & Hy)|[(Hi & Hx & Hy)|[Hx Hy]]].
  - destruct (C138_outside ndim points' x k1 v1 Hd' Hl' Ia') as (y' & E' & Hy'); [left; split; [exact Hx|]; intros k v Hk; apply (Hn k v Hk); exact Hi|]. exists y'. split; [exact E|]. split; [exact E'|]. rewrite Hy, Hy'. reflexivity.
  - destruct (C138_outside ndim points' x k2 v2 Hd' Hl' Ib') as (y' & E' & Hy'); [right; split; [exact Hx|]; intros k v Hk; apply (Hn k v Hk); exact Hi|]. exists y'. split; [exact E|]. split; [exact E'|]. rewrite Hy, Hy'. reflexivity.
  - destruct (C138_between ndim points' x k1 v1 k2 v2 Hd' Ia' Ib') as (y' & E' & Hy'); [split; [exact Hab|]; intros k v Hk; apply (Hn k v Hk)|exact Hx|]. exists y'. split; [exact E|]. split; [exact E'|]. rewrite Hy, Hy'. reflexivity.
Qed.
Print Assumptions C138_order.

(** Without points there is an error; this is the only one for tensors with at most one dim. *)
Theorem C138_error : forall ndim points x, (pcw_call ndim [] x = Err ValueError) /\
  (distinct_keys points -> points <> [] -> ndim <= 1 -> exists r, pcw_call ndim points x = Ok r).
Proof.
  intros ndim points x. split; [reflexivity|]. intros Hd Hp Hn. destruct points as [|[k v] [|q l]]; [contradiction| |].
  - rewrite pcw_one. apply Nat.leb_le in Hn. rewrite Hn. eexists. reflexivity.
  - destruct (pcw_same ndim _ x Hd ltac:(cbn; lia)) as (y & _ & E & _). eexists. exact E.
Qed.
Print Assumptions C138_error.

(** Not with a single point, although this is allowed: there is an error for tensors with two dims or more, and NaN at the point itself, but the value elsewhere. *)
Theorem C138_single_refuted : forall ndim k v x,
  (2 <= ndim -> pcw_call ndim [(k, v)] x = Err IndexError) /\
  (ndim <= 1 -> (x == k)%Q -> pcw_call ndim [(k, v)] x = Ok None) /\
  (ndim <= 1 -> ~ (x == k)%Q -> exists y, pcw_call ndim [(k, v)] x = Ok (Some y) /\ (y == v)%Q).
Proof.
  intros ndim k v x. rewrite pcw_one. assert (Hk : Qeq_bool (k - k) 0 = true) by (apply Qeq_bool_iff; lra). unfold clipped_frac. rewrite Hk. split; [|split].
  - intros H. apply Nat.leb_gt in H. rewrite H. reflexivity.
  - intros H Hx. apply Nat.leb_le in H. rewrite H. assert (E : Qeq_bool (x - k) 0 = true) by (apply Qeq_bool_iff; lra). rewrite E. reflexivity.
  - intros H Hx. apply Nat.leb_le in H. rewrite H. destruct (Qeq_bool (x - k) 0) eqn:E; [apply Qeq_bool_iff in E; exfalso; apply Hx; lra|]. eexists. split; [reflexivity|]. destruct (Qlt_bool (x - k) 0); lra.
Qed.
Print Assumptions C138_single_refuted.

Example C138_ex : let points := [(10, 1); (0, 0); (30, 5)]%Q in
  distinct_keys points /\ neighbours points 10 30 /\
  map (fun x => match pcw_call 2 points x with Ok (Some y) => Some (Qred y) | _ => None end) [-(5); 0; 5; 10; 15; 30; 40]%Q = [Some 0; Some 0; Some (1#2); Some 1; Some 2; Some 5; Some 5]%Q /\
  pcw_call 0 [(3, 7)]%Q 3%Q = Ok None /\ pcw_call 2 [(3, 7)]%Q 4%Q = Err IndexError.
Proof.
  cbn zeta. split; [|split; [|split; [|split]]]; [| |reflexivity|reflexivity|reflexivity].
  - cbn. repeat split; intros k v H; repeat (destruct H as [H|H]; [injection H as <- <-; lra|]); contradiction.
  - split; [lra|]. intros k v H. repeat (destruct H as [H|H]; [injection H as <- <-; first [left; lra|right; lra]|]); contradiction.
Qed.
