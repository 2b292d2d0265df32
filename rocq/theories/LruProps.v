(** Property C14: the LRU cache. *)
From Verif Require Import Base PyDict LruModel LruSpec LruProofs.

(** C14: for every history of operations by one thread the cache behaves as a list of entries in the order of last use, that
    is cut to the maximum size: all results, exceptions and statistics are the same, and the linked ring never breaks. *)
Theorem C14_behaves_as_lru_list : forall (K V : Type) (E : EqB K) (f : K -> res V) n ops, Forall no_interleaving ops ->
  snd (run f ops (init n)) = snd (lru_run f ops (Lru [] n 0 0)) /\
  cache_info (fst (run f ops (init n))) = lru_info (fst (lru_run f ops (Lru [] n 0 0))) /\
  forall k, snd (step f (Peek k false) (fst (run f ops (init n)))) = Ok (value_of (entries (fst (lru_run f ops (Lru [] n 0 0)))) k).
Proof.
  intros K V E f n ops HO. destruct (run_rel f ops (init n) (Lru [] n 0 0) (init_rel n) (or_introl HO)) as (s&c&rs&E1&E2&R). rewrite E1, E2. cbn [fst snd].
  split; [reflexivity|]. split.
  - destruct R as (L&HI&He&Hm&Hh&Hs&_). unfold cache_info, lru_info. rewrite He, map_length, (cache_len _ _ HI). congruence.
  - intros k. destruct (step_rel f (Peek k false) s c R I) as (s'&c'&r&F1&F2&_). rewrite F1. cbn [lru_step] in F2. injection F2 as _ <-. reflexivity.
Qed.
Print Assumptions C14_behaves_as_lru_list.
Example C14_ex : 
  let '(s, rs) := run (fun k => Ok (10 * k)) [Call 1; Call 2; Call 1; Call 3; Peek 2 true; Pop 1 None; PopOldest None; PopOldest None] (init 2) in
  rs = [Ok (Some 10); Ok (Some 20); Ok (Some 10); Ok (Some 30); Ok None; Ok (Some 10); Ok (Some 30); Err KeyError] /\
  cache_info s = (1, 4, 2, 0).
Proof. vm_compute. split; reflexivity. Qed.

(** C14: the same for several threads whose calls interleave (the lookup and the insertion of a call are separate steps),
    as long as the maximum size is never set to 0. *)
Theorem C14_threads : forall (K V : Type) (E : EqB K) (f : K -> res V) n ops, 0 < n -> Forall keeps_positive ops ->
  snd (run f ops (init n)) = snd (lru_run f ops (Lru [] n 0 0)) /\
  cache_info (fst (run f ops (init n))) = lru_info (fst (lru_run f ops (Lru [] n 0 0))).
Proof.
  intros K V E f n ops Hn HO. destruct (run_rel f ops (init n) (Lru [] n 0 0) (init_rel n) (or_intror (conj HO Hn))) as (s&c&rs&E1&E2&R). rewrite E1, E2. cbn [fst snd].
  split; [reflexivity|]. destruct R as (L&HI&He&Hm&Hh&Hs&_). unfold cache_info, lru_info. rewrite He, map_length, (cache_len _ _ HI). congruence.
Qed.
Print Assumptions C14_threads.
(** two threads compute the same key at the same time *)
Example C14_ex_threads : snd (run (fun k => Ok k) [Lookup 1; Lookup 1; Insert 1 1; Insert 1 1; Lookup 1] (init 1)) =
  [Ok None; Ok None; Ok None; Ok None; Ok (Some 1)].
Proof. reflexivity. Qed.

(** C14: every call returns (or raises) what the function does, whatever happened before. *)
Theorem C14_transparent : forall (K V : Type) (E : EqB K) (f : K -> res V) n ops i k,
  Forall no_interleaving ops \/ (0 < n /\ Forall keeps_positive ops) -> Forall (correct_sets f) ops ->
  (nth_error ops i = Some (Call k) -> nth_error (snd (run f ops (init n))) i = Some (answer (f k))) /\
  (nth_error ops i = Some (Lookup k) -> nth_error (snd (run f ops (init n))) i = Some (Ok None) \/
                                        nth_error (snd (run f ops (init n))) i = Some (answer (f k))).
Proof.
  intros K V E f n ops i k HO Hc.
  assert (HE : snd (run f ops (init n)) = snd (lru_run f ops (Lru [] n 0 0))).
  { destruct HO as [HO|[Hn HO]]; [now apply C14_behaves_as_lru_list|now apply C14_threads]. }
  rewrite HE. assert (Ha : all_correct f (Lru [] n 0 0)) by (intros ? ? []).
  split; intros Hi; [exact (run_correct f ops _ Ha Hc i k Hi)|exact (run_correct_weak f ops _ Ha Hc i k Hi)].
Qed.
Print Assumptions C14_transparent.

(** C14: the cache never has more entries than its maximum size. *)
Theorem C14_bounded : forall (K V : Type) (E : EqB K) (f : K -> res V) n ops,
  Forall no_interleaving ops \/ (0 < n /\ Forall keeps_positive ops) ->
  let '(_, _, maxsize, currsize) := cache_info (fst (run f ops (init n))) in currsize <= maxsize.
Proof.
  intros K V E f n ops HO.
  destruct (run_rel f ops (init n) (Lru [] n 0 0) (init_rel n)) as (s&c&rs&E1&E2&R); [destruct HO as [HO|[Hn HO]]; [now left|right; now split]|].
  rewrite E1. cbn. destruct R as (L&HI&He&Hm&Hh&Hs&Hf&Hl). rewrite (cache_len _ _ HI). exact Hl.
Qed.
Print Assumptions C14_bounded.

(** C14: after any sequence of calls, exactly the [n] most recently used keys are still there. *)
Theorem C14_keeps_the_most_recent : forall (K V : Type) (E : EqB K) (f : K -> res V) n ks k, (forall k, In k ks -> is_ok (f k) = true) ->
  (exists v, snd (step f (Peek k false) (fst (run f (map Call ks) (init n)))) = Ok (Some v)) <-> In k (firstn n (distinct (rev ks))).
Proof.
  intros K V E f n ks k Hf.
  assert (HO : Forall no_interleaving (map (@Call K V) ks)) by (apply Forall_forall; intros o Ho; apply in_map_iff in Ho; destruct Ho as (?&<-&_); exact I).
  destruct (C14_behaves_as_lru_list K V E f n (map Call ks) HO) as (_&_&H). rewrite H. clear H.
  pose proof (calls_keep f ks (Lru [] n 0 0) Hf (NoDup_nil _) [] ltac:(cbn; now destruct n)) as Hk. cbn [maxsize app] in Hk. rewrite <- Hk, <- in_rev.
  set (es := entries _). pose proof (value_of_In es k) as Hv. destruct (value_of es k) as [v|] eqn:E1.
  - split; [|intros _; now exists v]. intros _. apply value_of_found in E1. apply (in_map fst) in E1. exact E1.
  - split; [intros (v&Hx); congruence|]. intros Hi. exfalso. now apply (proj1 Hv eq_refl).
Qed.
Print Assumptions C14_keeps_the_most_recent.
Example C14_ex_recent : firstn 2 (distinct (rev [1; 2; 1; 3; 1])) = [1; 3].
Proof. reflexivity. Qed.

(** C14, finding: [cache_set] does not change the value of a key that is already in the cache. *)
Theorem C14_set_overwrites_refuted :
  ~ (forall (f : nat -> res nat) n ops k v, 0 < n -> Forall no_interleaving ops ->
     snd (step f (Peek k false) (fst (run f (ops ++ [Set_ k v]) (init n)))) = Ok (Some v)).
Proof. intros H. specialize (H (fun k => Ok k) 3 [Call 1] 1 5 ltac:(lia) ltac:(repeat constructor)). discriminate. Qed.
Print Assumptions C14_set_overwrites_refuted.

(** C14, finding: a call that is between its lookup and its insertion while another thread sets the maximum size to 0 (or a
    call that checked the size before) fails with KeyError, although the function has returned. *)
Theorem C14_concurrent_resize_refuted :
  ~ (forall (f : nat -> res nat) n ops k v, 0 < n -> nth_error (snd (run f (ops ++ [Insert k v]) (init n))) (length ops) = Some (Ok None)).
Proof. intros H. specialize (H (fun k => Ok k) 1 [Lookup 1; SetMaxsize 0] 1 1 ltac:(lia)). discriminate. Qed.
Print Assumptions C14_concurrent_resize_refuted.
