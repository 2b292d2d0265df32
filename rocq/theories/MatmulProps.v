(** C86: the product of tensors with named dims. *)
From Coq Require Import Permutation Lia.
From Verif Require Import Base ListLemmas TensorModel TensorSpec TensorProofs MatmulModel MatmulSpec MatmulProofs.
Local Open Scope nat_scope.

(** In whatever order the axes are, for any number of common, reduced and other dims. *)
Theorem C86_matmul : forall size version dynamic a b reduce use_mask, well size a -> well size b -> NoDup (bases reduce) ->
  incl (bases reduce) (bases (dims a)) -> incl (bases reduce) (bases (dims b)) -> use_mask = false \/ Forall (fun d => dynamic d = false) reduce ->
  exists r, matmul version dynamic a b reduce use_mask = Ok r /\ product size a b reduce r.
Proof.
  intros size version dynamic a b reduce use_mask Ha Hb Hn Ra Rb Hm. apply matmul_ok; try assumption. destruct Hm as [->|Hm]; [reflexivity|]. apply andb_false_iff. right. clear Hn Ra Rb. induction Hm as [|d l Hd _ IH]; cbn; [reflexivity|]. rewrite Hd. exact IH.
Qed.
Print Assumptions C86_matmul.

(** The other way round: the same entries. *)
Theorem C86_commutes : forall size version dynamic a b reduce use_mask r r', well size a -> well size b -> NoDup (bases reduce) ->
  incl (bases reduce) (bases (dims a)) -> incl (bases reduce) (bases (dims b)) ->
  matmul version dynamic a b reduce use_mask = Ok r -> matmul version dynamic b a reduce use_mask = Ok r' ->
  Permutation (bases (dims r)) (bases (dims r')) /\ forall env, inside size env (dims r) -> value r env = value r' env.
Proof.
  intros size version dynamic a b reduce use_mask r r' Ha Hb Hn Ra Rb Er Er'.
  assert (Hm : use_mask && existsb dynamic reduce = false) by (unfold matmul in Er; destruct (use_mask && existsb dynamic reduce); [discriminate|reflexivity]).
  destruct (matmul_ok size version dynamic a b reduce use_mask Ha Hb Hn Ra Rb Hm) as (x & E & Hr). assert (x = r) by congruence. subst x.
  destruct (matmul_ok size version dynamic b a reduce use_mask Hb Ha Hn Rb Ra Hm) as (x & E' & Hr'). assert (x = r') by congruence. subst x.
  assert (HP : Permutation (bases (dims r)) (bases (dims r'))). { apply NoDup_Permutation; [apply Hr|apply Hr'|]. intros c. rewrite (product_names size a b reduce r c Hr Ra Rb), (product_names size b a reduce r' c Hr' Rb Ra). tauto. }
  split; [exact HP|]. intros env He. destruct Hr as (_ & _ & Hv). destruct Hr' as (_ & _ & Hv'). rewrite Hv by exact He. rewrite Hv' by (unfold inside in *; eapply Permutation_Forall; eassumption). apply sum_over_ext. intros e. apply Z.mul_comm.
Qed.
Print Assumptions C86_commutes.

(** A dim to reduce that one of both does not have. *)
Theorem C86_missing : forall version dynamic a b reduce use_mask d, In d reduce -> ~ In (d_base d) (bases (dims a)) \/ ~ In (d_base d) (bases (dims b)) ->
  use_mask = false \/ Forall (fun d => dynamic d = false) reduce -> matmul version dynamic a b reduce use_mask = Err AssertionError.
Proof.
  intros version dynamic a b reduce use_mask d Hd H Hm. unfold matmul.
  assert (E : use_mask && existsb dynamic reduce = false). { destruct Hm as [->|Hm]; [reflexivity|]. apply andb_false_iff. right. clear Hd. induction Hm as [|x l Hx _ IH]; cbn; [reflexivity|]. rewrite Hx. exact IH. }
  rewrite E. assert (G : forall ds, ~ In (d_base d) (bases ds) -> forallb (fun d => mem d ds) reduce = false). { intros ds Hn. apply not_true_is_false. rewrite forallb_forall. intros Hf. apply Hn, mem_In, Hf, Hd. }
  destruct H as [H|H]; rewrite (G _ H); [reflexivity|]. destruct (forallb _ reduce); reflexivity.
Qed.
Print Assumptions C86_missing.

(** A weight with the same in and out dim: the axis with the higher priority is reduced, the other one is in the result. *)
Theorem C86_square : forall size version dynamic a b d1 d2 d use_mask, well size a -> dims b = [d1; d2] -> d_base d1 = d_base d -> d_base d2 = d_base d -> d_prio d1 <> d_prio d2 ->
  shape (traw b) = [size (d_base d); size (d_base d)] -> In (d_base d) (bases (dims a)) -> use_mask && dynamic d = false ->
  exists r, matmul version dynamic a b [d] use_mask = Ok r /\ well size r /\
    dims r = filter (fun x => negb (deq x d)) (dims a) ++ [if (d_prio d1 <? d_prio d2)%Z then d1 else d2] /\
    forall env, inside size env (dims r) -> value r env =
      sum_to (size (d_base d)) (fun k => value a (with_index env (d_base d) k) * at_ (traw b) (if (d_prio d1 <? d_prio d2)%Z then [env (d_base d); k] else [k; env (d_base d)]))%Z.
Proof. exact matmul_square. Qed.
Print Assumptions C86_square.

(** Examples, and what does not hold. *)
Definition mB : dim := {| d_base := 0; d_copy := 0; d_prio := 0 |}.
Definition mT : dim := {| d_base := 1; d_copy := 0; d_prio := 0 |}.
Definition mF : dim := {| d_base := 2; d_copy := 0; d_prio := 0 |}.
Definition mO : dim := {| d_base := 3; d_copy := 0; d_prio := 0 |}.
Definition mF' : dim := {| d_base := 2; d_copy := 1; d_prio := 1 |}.
Definition m_size (d : nat) : nat := match d with 0 => 2 | 1 => 3 | 2 => 2 | _ => 2 end.
Definition m_tbf : tensor := {| dims := [mT; mB; mF]; traw := {| shape := [3; 2; 2]; data := [1; 2; 3; 4; 5; 6; 7; 8; 9; 10; 11; 12]%Z |} |}.
Definition m_fo : tensor := {| dims := [mF; mO]; traw := {| shape := [2; 2]; data := [1; 10; 100; 1000]%Z |} |}.
Definition m_btf : tensor := {| dims := [mB; mT; mF]; traw := {| shape := [2; 3; 2]; data := [1; 1; 1; 1; 1; 1; 2; 2; 2; 2; 2; 2]%Z |} |}.
Example C86_ex_well : well m_size m_tbf /\ well m_size m_fo /\ well m_size m_btf.
Proof. repeat split; repeat constructor; cbn; lia. Qed.
Example C86_ex_linear : matmul 24 (fun _ => false) m_tbf m_fo [mF] true =
  Ok {| dims := [mT; mB; mO]; traw := {| shape := [3; 2; 2]; data := [201; 2010; 403; 4030; 605; 6050; 807; 8070; 1009; 10090; 1211; 12110]%Z |} |}.
Proof. reflexivity. Qed.
Example C86_ex_bmm : matmul 24 (fun _ => false) m_tbf m_btf [mF] true =
  Ok {| dims := [mT; mB]; traw := {| shape := [3; 2]; data := [3; 14; 11; 30; 19; 46]%Z |} |}.
Proof. reflexivity. Qed.
Example C86_ex_two : matmul 24 (fun d => deq d mT) m_tbf m_btf [mT; mF] false = Ok {| dims := [mB]; traw := {| shape := [2]; data := [33; 90]%Z |} |}.
Proof. reflexivity. Qed.
Example C86_ex_square : matmul 24 (fun _ => false) {| dims := [mF]; traw := {| shape := [2]; data := [1; 2]%Z |} |} {| dims := [mF'; mF]; traw := {| shape := [2; 2]; data := [1; 10; 100; 1000]%Z |} |} [mF] true =
  Ok {| dims := [mF]; traw := {| shape := [2]; data := [201; 2010]%Z |} |}.
Proof. reflexivity. Qed.

(** "If the reduction is over dynamic axes ... we need to apply masking. This is done automatically": it is an error, and which one
    depends on the behavior version. *)
Theorem C86_mask_refuted : exists size dynamic a b reduce, well size a /\ well size b /\ NoDup (bases reduce) /\
  incl (bases reduce) (bases (dims a)) /\ incl (bases reduce) (bases (dims b)) /\
  matmul 21 dynamic a b reduce true = Err NotImplementedError /\ matmul 22 dynamic a b reduce true = Err TypeError.
Proof.
  exists m_size, (fun d => deq d mT), m_tbf, m_btf, [mT]. pose proof C86_ex_well. split; [tauto|]. split; [tauto|]. split; [repeat constructor; cbn; lia|]. split; [intros c; cbn; tauto|]. split; [intros c; cbn; tauto|]. split; reflexivity.
Qed.
Print Assumptions C86_mask_refuted.

(** The product of two square matrices is an error, though the axes are told apart by their priorities. *)
Theorem C86_two_squares_refuted : exists a b d, dims a = dims b /\ axis_of (dims a) d = Ok 0 /\ shape (traw a) = [2; 2] /\ shape (traw b) = [2; 2] /\
  matmul 24 (fun _ => false) a b [d] true = Err OtherException.
Proof.
  exists {| dims := [mF'; mF]; traw := {| shape := [2; 2]; data := [1; 2; 3; 4]%Z |} |}, {| dims := [mF'; mF]; traw := {| shape := [2; 2]; data := [1; 2; 3; 4]%Z |} |}, mF.
  split; [reflexivity|]. split; [reflexivity|]. split; [reflexivity|]. split; [reflexivity|]. reflexivity.
Qed.
Print Assumptions C86_two_squares_refuted.
