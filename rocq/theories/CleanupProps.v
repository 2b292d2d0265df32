(** Property C18: the cleanup of the file cache. *)
From Coq Require Import QArith Qround Sorted.
From Verif Require Import Base PySort PySortProofs CleanupModel CleanupSpec CleanupProofs.
Local Open Scope Z_scope.

(** C18: when the cleanup returns, the needed space is free; when it raises, it did everything it could: all files not in use are gone
    (or the system refused to remove them). *)
Theorem C18_frees_what_is_needed : forall o tm now last total free need removable fs removed r,
  sensible o -> 0 <= need -> cleanup o tm now last total free need removable fs = (removed, r) ->
  match r with
  | Ok x => x = free + freed removed /\ need <= x
  | Err _ => free + freed removed < need /\ forall f, In f fs -> ~ In f (map fst removed) -> age now f <= o_used o
  end.
Proof.
  intros o tm now last total free need removable fs removed r [Hm Hu] Hn H. pose proof (cleanup_spec _ _ _ _ _ _ _ _ _ _ _ Hm Hn H) as [(E1&E2&E3)|((kept&Es&K1&K2&K3)&R&Hok)].
  - subst. pose proof (need_le_want o need total Hm Hn). cbn. lia.
  - destruct r as [x|e]; [apply Hok; reflexivity|]. destruct (K2 eq_refl) as [K2a K2b]. split; [exact K2a|]. intros f Hf Hnot.
    apply K2b. apply (Permutation_in _ (Permutation_sym (sort_entries_perm fs))) in Hf. rewrite Es in Hf. apply in_app_or in Hf. tauto.
Qed.
Print Assumptions C18_frees_what_is_needed.

(** C18: the files are removed oldest first: every file that it leaves is at least as new as every file it removes. *)
Theorem C18_oldest_first : forall o tm now last total free need removable fs removed r,
  sensible o -> 0 <= need -> cleanup o tm now last total free need removable fs = (removed, r) ->
  (exists kept, Permutation fs (map fst removed ++ kept) /\ forall f g, In f (map fst removed) -> In g kept -> f_mtime f <= f_mtime g) /\
  StronglySorted (fun f g => f_mtime f <= f_mtime g) (map fst removed).
Proof.
  intros o tm now last total free need removable fs removed r [Hm Hu] Hn H. pose proof (cleanup_spec _ _ _ _ _ _ _ _ _ _ _ Hm Hn H) as [(E1&E2&E3)|((kept&Es&K1&K2&K3)&R&Hok)].
  - subst. cbn. split; [exists fs; split; [reflexivity|intros f g []]|constructor].
  - pose proof (sort_entries_sorted fs) as Hs. rewrite Es in Hs.
    assert (Happ : forall l1 l2 : list entry, StronglySorted (fun f g => f_mtime f <= f_mtime g) (l1 ++ l2) ->
       (forall f g, In f l1 -> In g l2 -> f_mtime f <= f_mtime g) /\ StronglySorted (fun f g => f_mtime f <= f_mtime g) l1).
    { induction l1 as [|a l1 IH]; intros l2 Hl; [split; [intros f g []|constructor]|]. cbn in Hl. apply StronglySorted_inv in Hl. destruct Hl as [Hl Hall].
      rewrite Forall_forall in Hall. destruct (IH l2 Hl) as [A B]. split.
      - intros f g [<-|Hf] Hg; [apply Hall, in_or_app; now right|now apply A].
      - constructor; [exact B|]. apply Forall_forall. intros x Hx. apply Hall, in_or_app. now left. }
    destruct (Happ _ _ Hs) as [A B]. split; [|exact B]. exists kept. split; [|exact A]. rewrite <- Es. symmetry. apply sort_entries_perm.
Qed.
Print Assumptions C18_oldest_first.

(** C18: a file touched recently is never removed, unless even such a file is beyond the "always" age. A file below the "wanted" age is removed only
    when the space freed before it was not enough for the need, and any file below the "always" age only if it was not enough for what is wanted. *)
Theorem C18_spares_files_in_use : forall o tm now last total free need removable fs removed r pre f b post,
  sensible o -> 0 <= need -> cleanup o tm now last total free need removable fs = (removed, r) ->
  removed = pre ++ (f, b) :: post ->
  (age now f <= o_always o -> o_used o < age now f /\ free + freed pre < want_free o need total) /\
  (age now f <= o_always o -> age now f <= o_wanted o -> free + freed pre < need).
Proof.
  intros o tm now last total free need removable fs removed r pre f b post [Hm Hu] Hn H Er.
  pose proof (need_le_want o need total Hm Hn). pose proof (cleanup_spec _ _ _ _ _ _ _ _ _ _ _ Hm Hn H) as [(E1&E2&E3)|((kept&Es&K1&K2&K3)&R&Hok)].
  - rewrite E1 in Er. destruct pre; discriminate.
  - destruct (R _ _ _ _ Er) as [_ [D|[[D1 D2]|[D1 D2]]]]; lia.
Qed.
Print Assumptions C18_spares_files_in_use.

(** C18: files beyond the "always" age go, whenever the cleanup looks at the directory at all; it does not look only if what is wanted is free anyway. And
    when it does not reach what is wanted, then all files beyond the "wanted" age are gone. *)
Theorem C18_removes_old_files : forall o tm now last total free need removable fs removed r f,
  sensible o -> 0 <= need -> cleanup o tm now last total free need removable fs = (removed, r) ->
  In f fs -> ~ In f (map fst removed) ->
  (want_free o need total <= free /\ removed = []) \/
  (age now f <= o_always o /\ (want_free o need total <= free + freed removed \/ age now f <= o_wanted o)).
Proof.
  intros o tm now last total free need removable fs removed r f [Hm Hu] Hn H Hf Hnot.
  pose proof (cleanup_spec _ _ _ _ _ _ _ _ _ _ _ Hm Hn H) as [(E1&E2&E3)|((kept&Es&K1&K2&K3)&R&Hok)]; [left; auto|right].
  apply (Permutation_in _ (Permutation_sym (sort_entries_perm fs))) in Hf. rewrite Es in Hf. apply in_app_or in Hf. destruct Hf as [|Hf]; [contradiction|].
  split; [now apply K1|]. destruct (Z.le_gt_cases (want_free o need total) (free + freed removed)) as [|Hlt]; [now left|right].
  destruct r as [x|e]; [now apply K3|]. destruct (K2 eq_refl) as [_ K]. specialize (K f Hf). lia.
Qed.
Print Assumptions C18_removes_old_files.

(** Five files, one of which cannot be removed; space of 60 needed (so 120 wanted) of 1000 with 10 free. *)
Definition ex_files : list entry :=
  [mk_entry 99990 50 0; mk_entry 5000 30 1; mk_entry (-3000000) 20 2; mk_entry 90000 40 3; mk_entry 5000 31 4].
Example C18_ex :
  sensible default_opts /\
  (let '(removed, r) := cleanup default_opts 600 100000 None 100 10 60 (fun f => negb (Nat.eqb (f_name f) 1)) ex_files in
   (map (fun fb => (f_name (fst fb), snd fb)) removed, r)) = ([(2, true); (4, true); (1, false)]%nat, Ok 61).
Proof. vm_compute. repeat split; try reflexivity; discriminate. Qed.

(** C18, finding: with [cleanup_files_wanted_older_than_days] below the 10 seconds (for example 0), files in use are removed. *)
Theorem C18_small_wanted_age_refuted :
  ~ (forall o tm now last total free need removable fs removed r f,
     (1 <= o_multiplier o)%Q -> 0 <= o_wanted o -> o_wanted o <= o_always o -> 0 < o_used o -> 0 <= need ->
     cleanup o tm now last total free need removable fs = (removed, r) ->
     In f (map fst removed) -> age now f <= o_always o -> o_used o < age now f).
Proof.
  intros H. specialize (H (mk_opts (31 * 86400) 0 (2 # 10) 2 10) 600 1000 None 100 10 0 (fun _ => true) [mk_entry 995 50 0] _ _ (mk_entry 995 50 0)
    ltac:(discriminate) ltac:(cbn; lia) ltac:(cbn; lia) ltac:(cbn; lia) ltac:(lia) eq_refl (or_introl eq_refl) ltac:(cbn; lia)). cbn in H. lia.
Qed.
Print Assumptions C18_small_wanted_age_refuted.
