(** Property C37: [better_repr] and reading it back. *)
From Coq Require Import Ascii String Permutation.
From Verif Require Import Base ListLemmas PyDict ReprModel ReprSpec ReprProofs.
Local Open Scope string_scope. Local Open Scope nat_scope. Local Open Scope list_scope.

(** C37: whatever [better_repr] writes, python reads back as the same value (also with a newline at the end, as in a file), if it has no tuples with one element. *)
Theorem C37_read_back : forall v text ending, well_formed v -> no_singletons v -> better_repr v = Ok text -> ending = ""%string \/ ending = newline ->
  exists v', eval (text ++ ending)%string = Ok v' /\ same v v'.
Proof. intros v text ending Hw Hn Ht He. exists (norm v). split; [now apply eval_better_repr|now apply norm_same]. Qed.
Print Assumptions C37_read_back.

(** C37: the text does not depend on the order of the entries of dictionaries. *)
Theorem C37_deterministic : forall v v', same v v' -> well_formed v -> no_singletons v -> better_repr v = better_repr v'.
Proof. intros v v' Hs Hw Hn. unfold better_repr. destruct (same_text v v' Hs Hw Hn) as [-> ->]. reflexivity. Qed.
Print Assumptions C37_deterministic.

(** C37: different values have different texts. *)
Theorem C37_injective : forall v v' text, well_formed v -> no_singletons v -> well_formed v' -> no_singletons v' -> better_repr v = Ok text -> better_repr v' = Ok text ->
  exists w, same v w /\ same v' w.
Proof.
  intros v v' text Hw Hn Hw' Hn' Ht Ht'. exists (norm v). split; [now apply norm_same|].
  pose proof (eval_better_repr v text "" Hw Hn Ht (or_introl eq_refl)) as E. pose proof (eval_better_repr v' text "" Hw' Hn' Ht' (or_introl eq_refl)) as E'.
  rewrite E in E'. apply Ok_inj in E'. rewrite E'. now apply norm_same.
Qed.
Print Assumptions C37_injective.

(** An example with everything; the learning rate file of two epochs. *)
Definition ex_value : pyv :=
  VDict [(KInt 2, VCall (VFloat "1e-05") (VDict [(KStr ":meta:device", VStr "it's"); (KStr "dev_score", VFloat "-0.25"); (KStr "a\b", VTuple [VInt (-12); VBool true])]));
         (KInt 1, VCall VNan (VDict [(KStr "x", VList [VNone; VNegInf; VTuple []])]))].
Example C37_ex_hypotheses : well_formed ex_value /\ no_singletons ex_value /\ printable_value ex_value = true.
Proof. split; [|split; [|reflexivity]]; cbn; repeat split; auto; repeat constructor; cbn; intuition discriminate. Qed.
Example C37_ex_text :
  better_repr (VDict [(KStr "b", VStr "x'y"); (KStr "a", VFloat "0.5")]) = Ok ("{'a': 0.5, 'b': " ++ String dquote ("x'y" ++ String dquote "}"))%string.
Proof. reflexivity. Qed.
Example C37_ex_read : match better_repr ex_value with Ok t => eval (t ++ newline)%string = Ok (norm ex_value) | Err _ => False end.
Proof. vm_compute. reflexivity. Qed.

(** C37, finding: a tuple with one string is written without the quotes, and read back as something else. *)
Theorem C37_singletons_refuted :
  ~ (forall v text, well_formed v -> better_repr v = Ok text -> exists v', eval text = Ok v' /\ same v v').
Proof.
  intros H. destruct (H (VTuple [VStr "1"]) "(1,)"%string) as (v'&E&S); [cbn; auto|reflexivity|]. vm_compute in E. apply Ok_inj in E. subst v'.
  inversion S as [| |? ? F| |]; subst. inversion F as [|? ? ? ? S']; subst. inversion S'.
Qed.
Print Assumptions C37_singletons_refuted.

(** C37, finding: nested tuples with one element lose a level, or fail. *)
Theorem C37_nested_singletons_refuted :
  (exists text, better_repr (VTuple [VTuple [VInt 1]]) = Ok text /\ eval text = Ok (VTuple [VInt 1])) /\
  better_repr (VTuple [VTuple [VInt 1; VInt 2]]) = Err TypeError.
Proof. split; [eexists; split; vm_compute; reflexivity|reflexivity]. Qed.
Print Assumptions C37_nested_singletons_refuted.

(** C37, finding: keys of different types cannot be written at all. *)
Theorem C37_mixed_keys_refuted : ~ (forall v, well_formed v -> no_singletons v -> exists text, better_repr v = Ok text).
Proof.
  intros H. destruct (H (VDict [(KStr "a", VNone); (KInt 1, VNone)])) as [t E]; [split; [repeat constructor; cbn; intuition discriminate|cbn; auto]|cbn; auto|discriminate].
Qed.
Print Assumptions C37_mixed_keys_refuted.
