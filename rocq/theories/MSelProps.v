(** C136: packing by a mask and putting it back. *)
From Verif Require Import Base TensorModel TensorSpec MatmulSpec ReshapeSpec MSelModel MSelSpec MSelProofs.
Local Open Scope nat_scope.

(** Each entry where the mask is true is there once, in the order of the given dims, with all other dims as they were. A size that
    is already known must be right. *)
Theorem C136_select : forall size t mask ds out, well size t -> well size mask -> mask_dims mask ds -> incl (bases (dims mask)) (bases (dims t)) ->
  ~ In (d_base out) (bases (dims t)) ->
  exists k n, (forall known, known = None \/ known = Some n -> exists r, masked_select t mask ds out known = Ok r /\ selected size t mask ds out r k n) /\
    (forall n', n' <> n -> masked_select t mask ds out (Some n') = Err AssertionError).
Proof.
  intros size t mask ds out Ht Hm Hd Hi Ho. exists (number size mask ds), (count (bits size mask ds)). split.
  - intros known Hk. apply select_ok; try assumption. intros n ->. destruct Hk as [Hk|Hk]; congruence.
  - intros n' Hn. eapply known_wrong; eassumption.
Qed.
(** The order says all: there is no other such numbering. *)
Theorem C136_unique : forall size P ds k n k' n', numbering size P ds k n -> numbering size P ds k' n' ->
  n = n' /\ forall env, inside size env ds -> P env -> k env = k' env.
Proof. exact numbering_unique. Qed.
(** Putting entries back: in the same order, at the places where the mask is true and that are no padding. Further entries are
    ignored, too few are an error. *)
Theorem C136_scatter : forall size valid mask ds, well size mask -> mask_dims mask ds ->
  exists k n, numbering size (on_valid valid mask) ds k n /\
    forall source backup in_ m, a_source size source mask in_ m -> a_backup size backup (scatter_dims source mask ds in_) ->
      (n <= m -> exists r, masked_scatter size valid source backup mask ds in_ = Ok r /\
        scattered size source backup (on_valid valid mask) (scatter_dims source mask ds in_) in_ r k) /\
      (m < n -> (forall c, In c (bases (dims source)) -> c <> d_base in_ -> 0 < size c) ->
        masked_scatter size valid source backup mask ds in_ = Err OtherException).
Proof. exact masked_scatter_ok. Qed.
(** One is the inverse of the other, if the mask is false in the padding. *)
Theorem C136_inverse : forall size valid t mask ds out backup, well size t -> well size mask -> mask_dims mask ds ->
  incl (bases (dims mask)) (bases (dims t)) -> ~ In (d_base out) (bases (dims t)) -> a_backup size backup (dims t) ->
  (forall env, inside size env (dims mask) -> on mask env -> valid (map env (bases (dims mask))) = true) ->
  exists p r, masked_select t mask ds out None = Ok p /\ masked_scatter size valid p backup mask ds out = Ok r /\
    well size r /\ Permutation (bases (dims r)) (bases (dims t)) /\
    forall env, inside size env (dims t) ->
      (on mask env -> value r env = value t env) /\ (~ on mask env -> value r env = match backup with Some b => value b env | None => 0%Z end).
Proof. exact round_trip. Qed.
(** The own [nonzero] gives the places in order, if the number of them is right. *)
Theorem C136_nonzero : forall l, nonzero l (length (filter (fun b => b) l)) = torch_nonzero l /\
  (forall p, In p (torch_nonzero l) <-> nth_error l p = Some true).
Proof.
  intros l. split; [exact (nonzero_ok l)|]. intros p. unfold torch_nonzero. rewrite filter_In, in_seq. split.
  - intros [_ H]. rewrite (nth_error_nth' l false) by (apply on_lt, H). congruence.
  - intros H. assert (p < length l) by (apply nth_error_Some; congruence). split; [lia|]. apply nth_error_nth, H.
Qed.

(** Two sequences, of lengths 1 and 2. *)
Definition dB := {| d_base := 1; d_copy := 0; d_prio := 0%Z |}.
Definition dT := {| d_base := 2; d_copy := 0; d_prio := 0%Z |}.
Definition dF := {| d_base := 3; d_copy := 0; d_prio := 0%Z |}.
Definition dP := {| d_base := 4; d_copy := 0; d_prio := 0%Z |}.
Definition sizes_ (c : nat) : nat := if c =? 3 then 2 else if c =? 4 then 7 else 2.
Definition lens (i : list nat) : bool := match i with [b; t] => t <? b + 1 | _ => true end.
Definition x_ := {| dims := [dT; dF; dB]; traw := {| shape := [2; 2; 2]; data := [1; 2; 3; 4; 5; 6; 7; 8]%Z |} |}.
Definition mask_ := {| dims := [dB; dT]; traw := {| shape := [2; 2]; data := [1; 0; 1; 1]%Z |} |}.

(** The mask is not looked at in the same way: selecting takes what is in the padding, putting it back does not. So it is not the
    inverse if the mask is true in the padding, and no error says so. *)
Theorem C136_inverse_refuted : exists size valid t mask ds out p r env, well size t /\ well size mask /\ mask_dims mask ds /\
  incl (bases (dims mask)) (bases (dims t)) /\ ~ In (d_base out) (bases (dims t)) /\
  masked_select t mask ds out None = Ok p /\ masked_scatter size valid p None mask ds out = Ok r /\
  inside size env (dims t) /\ on_valid valid mask env /\ value r env <> value t env.
Proof.
  exists sizes_, lens, {| dims := [dB; dT]; traw := {| shape := [2; 2]; data := [5; 6; 7; 8]%Z |} |}, {| dims := [dB; dT]; traw := {| shape := [2; 2]; data := [1; 1; 1; 1]%Z |} |}, [dB; dT], dP.
  do 2 eexists. exists (fun c => if c =? 1 then 1 else 0). split; [repeat split; repeat constructor; cbn; intuition discriminate|]. split; [repeat split; repeat constructor; cbn; intuition discriminate|].
  split; [split; [apply Permutation_refl|discriminate]|]. split; [apply incl_refl|]. split; [cbn; intuition discriminate|]. split; [vm_compute; reflexivity|]. split; [vm_compute; reflexivity|].
  split; [repeat constructor|]. split; [split; [discriminate|reflexivity]|]. vm_compute. discriminate.
Qed.
(** Other dims than those of the mask are refused by both, and also a source without the packed dim. *)
Theorem C136_wrong_dims : forall size valid source backup mask ds d,
  (~ (forall c, In c (bases (dims mask)) <-> In c (bases ds)) -> (forall known, masked_select source mask ds d known = Err AssertionError) /\ masked_scatter size valid source backup mask ds d = Err AssertionError) /\
  (~ In (d_base d) (bases (dims source)) -> masked_scatter size valid source backup mask ds d = Err AssertionError).
Proof.
  intros size valid source backup mask ds d.
  assert (Hm : forall x l, mem x l = true <-> In (d_base x) (bases l)).
  { intros x l. unfold mem, bases. rewrite existsb_exists, in_map_iff. split; intros (y & H1 & H2); exists y; [apply Nat.eqb_eq in H2; auto|split; [exact H2|apply Nat.eqb_eq; auto]]. }
  assert (Hs : same_set (dims mask) ds = true -> forall c, In c (bases (dims mask)) <-> In c (bases ds)).
  { unfold same_set. rewrite andb_true_iff, !forallb_forall. intros [H1 H2] c. unfold bases. rewrite !in_map_iff. split; intros (x & <- & Hx); [apply H1 in Hx|apply H2 in Hx]; apply Hm in Hx; apply in_map_iff; exact Hx. }
  unfold masked_select, masked_scatter, scatter_at. cbn [copy_masked dims]. destruct (same_set (dims mask) ds) eqn:E; cbn [assert_ bind].
  - split; [intros H; exfalso; apply H, Hs; reflexivity|]. intros H. destruct (mem d (dims source)) eqn:Ed; [apply Hm in Ed; contradiction|reflexivity].
  - split; [intros _; split; reflexivity|reflexivity].
Qed.
Print Assumptions C136_wrong_dims.
(** A tensor without one of the dims of the mask is not repeated for it: it is an error. *)
Theorem C136_missing_dim_refuted : exists size t mask ds out, well size t /\ well size mask /\ mask_dims mask ds /\ ~ In (d_base out) (bases (dims t)) /\
  masked_select t mask ds out None = Err AssertionError.
Proof.
  exists sizes_, {| dims := [dB]; traw := {| shape := [2]; data := [5; 6]%Z |} |}, mask_, [dB; dT], dP.
  split; [repeat split; repeat constructor; cbn; intuition discriminate|]. split; [repeat split; repeat constructor; cbn; intuition discriminate|].
  split; [split; [apply Permutation_refl|discriminate]|]. split; [cbn; intuition discriminate|]. vm_compute. reflexivity.
Qed.

Example C136_example_select : masked_select x_ mask_ [dB; dT] dP None = Ok {| dims := [dP; dF]; traw := {| shape := [3; 2]; data := [1; 3; 2; 4; 6; 8]%Z |} |}.
Proof. reflexivity. Qed.
Example C136_example_select_other_order : masked_select x_ mask_ [dT; dB] dP (Some 3) = Ok {| dims := [dP; dF]; traw := {| shape := [3; 2]; data := [1; 3; 2; 4; 6; 8]%Z |} |} /\
  masked_select x_ mask_ [dT; dB] dP (Some 4) = Err AssertionError.
Proof. split; reflexivity. Qed.
Example C136_example_scatter : masked_scatter sizes_ lens {| dims := [dF; dP]; traw := {| shape := [2; 3]; data := [1; 2; 6; 3; 4; 8]%Z |} |} None mask_ [dB; dT] dP =
  Ok {| dims := [dB; dT; dF]; traw := {| shape := [2; 2; 2]; data := [1; 3; 0; 0; 2; 4; 6; 8]%Z |} |}.
Proof. reflexivity. Qed.
Example C136_example_backup : masked_scatter sizes_ lens {| dims := [dP]; traw := {| shape := [3]; data := [1; 2; 6]%Z |} |}
    (Some {| dims := [dT]; traw := {| shape := [2]; data := [30; 40]%Z |} |}) mask_ [dB; dT] dP =
  Ok {| dims := [dB; dT]; traw := {| shape := [2; 2]; data := [1; 40; 2; 6]%Z |} |}.
Proof. reflexivity. Qed.
Example C136_example_few : masked_scatter sizes_ lens {| dims := [dP]; traw := {| shape := [2]; data := [1; 2]%Z |} |} None mask_ [dB; dT] dP = Err OtherException.
Proof. reflexivity. Qed.
Example C136_example_hypotheses : well sizes_ x_ /\ well sizes_ mask_ /\ mask_dims mask_ [dT; dB] /\ incl (bases (dims mask_)) (bases (dims x_)) /\
  ~ In (d_base dP) (bases (dims x_)) /\ (forall env, inside sizes_ env (dims mask_) -> on mask_ env -> lens (map env (bases (dims mask_))) = true) /\
  a_source sizes_ {| dims := [dF; dP]; traw := {| shape := [2; 3]; data := [1; 2; 6; 3; 4; 8]%Z |} |} mask_ dP 3.
Proof.
  split; [repeat split; repeat constructor; cbn; intuition discriminate|]. split; [repeat split; repeat constructor; cbn; intuition discriminate|]. split; [split; [apply perm_swap|discriminate]|].
  split; [intros c Hc; cbn in *; tauto|]. split; [cbn; intuition discriminate|]. split.
  - intros env H. inversion H as [|x l H1 H2]; subst. inversion H2 as [|x l H3 H4]; subst. unfold on, value. cbn in *. unfold sizes_ in *. cbn in *. destruct (env 1) as [|[|a]], (env 2) as [|[|b]]; try lia; cbn; try reflexivity. intros X. exfalso. apply X. reflexivity.
  - split; [repeat split; repeat constructor; cbn; intuition discriminate|]. split; [cbn; auto|]. cbn. intuition; subst; discriminate.
Qed.
Print Assumptions C136_select.
Print Assumptions C136_unique.
Print Assumptions C136_scatter.
Print Assumptions C136_inverse.
Print Assumptions C136_nonzero.
Print Assumptions C136_inverse_refuted.
Print Assumptions C136_missing_dim_refuted.
