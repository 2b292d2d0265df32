(** Declaring dims the same. *)
From Coq Require Import Relations.
From Verif Require Import Base SameAsModel SameAsSpec SameAsProofs.

(** ** C126 *)
(** One successful call joins the classes of both dims and nothing else. *)
Theorem C126_union : forall h a b h', wf h -> a < h_n h -> b < h_n h -> declare_same_as h a b = DOk h' ->
  wf h' /\ h_n h' = h_n h /\ same h' a b /\
  forall i j, i < h_n h -> j < h_n h -> (same h' i j <-> same h i j \/ (same h i a /\ same h b j) \/ (same h i b /\ same h a j)).
Proof.
  intros h a b h' W Ha Hb H. destruct (declare_same h a b h' W Ha Hb H) as (W' & N & _ & S). split; [exact W'|]. split; [exact N|]. split; [|exact S].
  apply S; [assumption|assumption|]. right. left. split; apply same_refl; assumption.
Qed.
Print Assumptions C126_union.
(** After any number of calls, two dims made by the user compare equal iff this follows from the declared pairs. *)
Theorem C126_closure : forall l h h', fresh h -> user_dims h -> (forall a b, In (a, b) l -> a < h_n h /\ b < h_n h) -> declare_all h l = DOk h' ->
  forall i j, i < h_n h -> j < h_n h -> (dim_eq h' i j = true <-> declared l i j).
Proof. exact declare_all_closure. Qed.
Print Assumptions C126_closure.
(** The recursion always ends: with a result or an error raised by the code. *)
Theorem C126_terminates : forall h a b, wf h -> a < h_n h -> b < h_n h -> declare_same_as h a b <> DErr EFuel.
Proof. exact declare_fuel. Qed.
Print Assumptions C126_terminates.

Definition heap_of (l : list dim) (raws : list (option nat)) : heap :=
  Heap (length l) (fun i => nth i l (Dim 0 None None None None)) (length raws) (fun t => nth t raws None).
Definition dnone : dim := Dim 0 None None None None.
Definition dstatic (n : nat) : dim := Dim 0 (Some n) (Some n) None None.
Definition ddyn (t : nat) : dim := Dim 0 None None (Some t) None.
Definition derived (inputs : list nat) (cap size dyn : option nat) : dim := Dim 0 cap size dyn (Some (Extra Unspecified None None None (Some inputs) false false false [])).
Definition view (r : dres heap) : dres (list (option nat * option nat * option nat)) :=
  match r with DOk h => DOk (map (fun i => (same_as h i, size_of h i, raw_of h i)) (seq 0 (h_n h))) | DErr e => DErr e end.

Lemma by_result : forall (P : heap -> Prop) r, match r with DOk g => P g | DErr _ => False end -> exists h', r = DOk h' /\ P h'.
Proof. intros P [g|e] Hg; [|destruct Hg]. exists g. auto. Qed.

(** "Two dims without contradicting sizes can always be declared the same" is false.
    [z = Dim(5)], [x = Dim(None)], [y = x + 1]: [z.declare_same_as(y)] raises [InfiniteRecursionDetected], and so does the other way. *)
Theorem C126_recursion_refuted : exists h a b, fresh h /\ user_dims h /\ size_of h a = Some 5 /\ size_of h b = None /\ dyn_of h b = None /\
  declare_same_as h a b = DErr ERecursion /\ declare_same_as h b a = DErr ERecursion.
Proof.
  exists (heap_of [dstatic 5; dnone; derived [1; 3] None None None; dstatic 1] []), 0, 2.
  split; [intros [|[|[|[|[|i]]]]]; reflexivity|]. split; [intros [|[|[|[|[|i]]]]]; split; (reflexivity || discriminate)|]. split; [reflexivity|]. split; [reflexivity|]. split; [reflexivity|]. split; vm_compute; reflexivity.
Qed.
Print Assumptions C126_recursion_refuted.
(** [x = Dim(None)], [y = x + 1] (which is kept in a cache of [x]): [x.declare_same_as(Dim(5))] raises an [AttributeError]. *)
Theorem C126_attribute_refuted : exists h a b, fresh h /\ user_dims h /\ size_of h a = None /\ dyn_of h a = None /\ plain h b /\
  declare_same_as h a b = DErr EAttribute.
Proof.
  exists (heap_of [Dim 0 None None None (Some (Extra Unspecified None None None None false false false [(0, 2)])); dstatic 5; derived [0; 3] None None None; dstatic 1] []), 0, 1.
  split; [intros [|[|[|[|[|i]]]]]; reflexivity|]. split; [intros [|[|[|[|[|i]]]]]; split; (reflexivity || discriminate)|]. split; [reflexivity|]. split; [reflexivity|]. split; [repeat split; right; reflexivity|vm_compute; reflexivity].
Qed.
Print Assumptions C126_attribute_refuted.
(** "Equal dims have the same vocabulary as before" is false: the one of [self] is lost when [other] has none. *)
Theorem C126_vocab_refuted : exists h a b h', fresh h /\ user_dims h /\ vocab h a = Some 7 /\ vocab h b = None /\
  declare_same_as h a b = DOk h' /\ vocab h' a = None /\ vocab h' b = None.
Proof.
  set (h := heap_of [Dim 0 (Some 5) (Some 5) None (Some (Extra Feature (Some 7) None None None false false false [])); dstatic 5] []).
  destruct (by_result (fun g => vocab g 0 = None /\ vocab g 1 = None) (declare_same_as h 0 1)) as (h' & E & P); [vm_compute; auto|]. exists h, 0, 1, h'.
  split; [intros [|[|[|i]]]; reflexivity|]. split; [intros [|[|[|i]]]; split; (reflexivity || discriminate)|]. split; [reflexivity|]. split; [reflexivity|]. split; [exact E|exact P].
Qed.
Print Assumptions C126_vocab_refuted.

(** ** C127 *)
(** Both dims (nothing was declared for them before) have the same static size afterwards; a known one is kept, and two different ones are an error. *)
Theorem C127_sizes : forall h a b h', a <> b -> same_as h a = None -> same_as h b = None -> declare_same_as h a b = DOk h' ->
  size_of h' a = size_of h' b /\ (forall s, size_of h a = Some s \/ size_of h b = Some s -> size_of h' a = Some s).
Proof. intros h a b h' Hab Ea Eb. apply declare_roots; assumption. Qed.
Print Assumptions C127_sizes.
(** A new dim without a size takes over the static size and the tensor of sizes of any dim which is not derived; nothing else changes. *)
Theorem C127_new_dim : forall h a b, a <> b -> a < h_n h -> blank h a -> plain h b ->
  exists h', declare_same_as h a b = DOk h' /\ same h' a b /\ size_of h' a = size_of h b /\ dyn_of h' a = dyn_of h b /\
    (forall t, h_raw h' t = h_raw h t) /\ (forall i, i <> a -> h_dim h' i = h_dim h i).
Proof.
  intros h a b Hab La Ha Hb. destruct (declare_blank h a b Hab La Ha Hb) as (h' & E & C1 & C2 & Z & Y & R & I). exists h'. split; [exact E|]. split; [exists b; split; assumption|]. auto.
Qed.
Print Assumptions C127_new_dim.
(** "Dims declared the same have the same static size" is false after several calls:
    [x.declare_same_as(y); y.declare_same_as(Dim(5))] leaves [x] without size, although it equals the [Dim(5)]. *)
Theorem C127_stale_refuted : exists h h', fresh h /\ user_dims h /\ declare_all h [(0, 1); (1, 2)] = DOk h' /\
  dim_eq h' 0 2 = true /\ size_of h' 2 = Some 5 /\ size_of h' 0 = None.
Proof.
  set (h := heap_of [dnone; dnone; dstatic 5] []). 
  destruct (by_result (fun g => dim_eq g 0 2 = true /\ size_of g 2 = Some 5 /\ size_of g 0 = None) (declare_all h [(0, 1); (1, 2)])) as (h' & E & P); [vm_compute; auto|]. exists h, h'.
  split; [intros [|[|[|[|i]]]]; reflexivity|]. split; [intros [|[|[|[|i]]]]; split; (reflexivity || discriminate)|]. split; [exact E|exact P].
Qed.
Print Assumptions C127_stale_refuted.
(** "Dims declared the same have the same dynamic sizes" is false: there is only a printed warning. *)
Theorem C127_dynamic_refuted : exists h h', fresh h /\ user_dims h /\ declare_same_as h 0 1 = DOk h' /\
  dim_eq h' 0 1 = true /\ raw_of h' 0 = Some 3 /\ raw_of h' 1 = Some 4.
Proof.
  set (h := heap_of [ddyn 0; ddyn 1] [Some 3; Some 4]). 
  destruct (by_result (fun g => dim_eq g 0 1 = true /\ raw_of g 0 = Some 3 /\ raw_of g 1 = Some 4) (declare_same_as h 0 1)) as (h' & E & P); [vm_compute; auto|]. exists h, h'.
  split; [intros [|[|[|i]]]; reflexivity|]. split; [intros [|[|[|i]]]; split; (reflexivity || discriminate)|]. split; [exact E|exact P].
Qed.
Print Assumptions C127_dynamic_refuted.

(** ** Examples *)
(** tests/test_TFUtil.py test_dim_math_feat_declare_same_as_circle, 1930-1945: [feat = 12], [feat2 = feat // 2], [feat2 + feat2] *)
Example e_circle : let h := heap_of [dstatic 12; derived [0; 3] (Some 6) (Some 6) None; derived [1; 1] (Some 12) (Some 12) None; dstatic 2] [] in
  view (declare_same_as h 2 0) = DOk [(None, Some 12, None); (None, Some 6, None); (Some 0, Some 12, None); (None, Some 2, None)] /\
  dim_eq h 2 0 = false /\ match declare_same_as h 2 0 with DOk h' => dim_eq h' 2 0 = true /\ dim_eq h' 1 0 = false /\ op_of h' 0 = None | DErr _ => False end.
Proof. vm_compute. auto. Qed.
(** test_dim_math_pad_dummy_equal, 1844-1858: [time], [pad + time] and [1 + time], all of unknown size *)
Example e_pad : let h := heap_of [dnone; dstatic 1; derived [1; 0] None None None; dstatic 1; derived [3; 0] None None None] [] in
  match declare_same_as h 2 4 with DOk h' => dim_eq h' 2 4 = true /\ dim_eq h' 2 0 = false /\ dim_eq h' 1 3 = false | DErr _ => False end.
Proof. vm_compute. auto. Qed.
(** tests/test_rf_base.py test_dim_size_after_declare_same_as, 266-287: both have the raw sizes of [time * 2] *)
Example e_after : let h := heap_of [dnone; derived [2; 3] None None (Some 1); ddyn 0; dstatic 2] [Some 3; Some 6] in
  view (declare_same_as h 0 1) = DOk [(Some 1, None, Some 6); (None, None, Some 6); (None, None, Some 3); (None, Some 2, None)].
Proof. vm_compute. reflexivity. Qed.
(** Different static sizes are an error *)
Example e_different : declare_same_as (heap_of [dstatic 3; dstatic 5] []) 0 1 = DErr EAssert.
Proof. reflexivity. Qed.
(** The hypotheses of [C126_closure] and [C127_new_dim] *)
Example e_three : let h := heap_of [dnone; dnone; dstatic 5; dstatic 4] [] in
  view (declare_all h [(0, 1); (0, 2)]) = DOk [(Some 2, Some 5, None); (Some 2, Some 5, None); (None, Some 5, None); (None, Some 4, None)] /\ declared [(0, 1); (0, 2)] 1 2.
Proof. split; [vm_compute; reflexivity|]. apply (rst_trans nat _ 1 0 2); [apply rst_sym|]; apply rst_step; cbn; auto. Qed.
Example e_new : let h := heap_of [dnone; ddyn 0] [Some 3] in blank h 0 /\ plain h 1 /\ view (declare_same_as h 0 1) = DOk [(Some 1, None, Some 3); (None, None, Some 3)].
Proof. split; [repeat split|]. split; [repeat split; left; reflexivity|vm_compute; reflexivity]. Qed.
