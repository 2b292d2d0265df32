(** Vocabulary for C42, C43 and C44. *)
From Coq Require Import String QArith Sorted.
From Verif Require Import Base OptimModel.
Local Open Scope string_scope. Local Open Scope nat_scope. Local Open Scope list_scope.

(** ** C42 *)
Section S.
Context {St H : Type}.
Definition params (o : optimizer St H) : list nat := flat_map snd (p_groups o).
(** [names] are the names of the parameters of the network: one for each, all different. The optimizer has each parameter only once, and states only for its own parameters. *)
Definition well_formed (names : list (string * nat)) (o : optimizer St H) : Prop :=
  NoDup (map fst names) /\ NoDup (map snd names) /\ NoDup (params o) /\ incl (params o) (map snd names) /\
  NoDup (map fst (p_state o)) /\ incl (map fst (p_state o)) (params o).
(** The parameter [p] is in the group number [i]. *)
Definition in_group (o : optimizer St H) (i p : nat) : Prop := exists h ps, nth_error (p_groups o) i = Some (h, ps) /\ In p ps.
(** The parameters of [o] in order have the names [ns]. *)
Definition in_order (names : list (string * nat)) (o : optimizer St H) (ns : list string) : Prop := Forall2 (fun p n => In (n, p) names) (params o) ns.
(** The sizes of the groups *)
Definition sizes (o : optimizer St H) : list nat := map (fun g => List.length (snd g)) (p_groups o).
End S.

(** ** C43 *)
(** The parameter [p] is found first as [pn] in the module [m]. *)
Definition first_place (net : network) (m : module) (pn : string) (p : nat) : Prop :=
  exists before after b a, net = before ++ m :: after /\ m_params m = b ++ (pn, p) :: a /\
    (forall m', In m' before -> ~ In p (map snd (m_params m'))) /\ ~ In p (map snd b).
Definition occurs (net : network) (p : nat) : Prop := exists m, In m net /\ In p (map snd (m_params m)).
(** Different parameters have different names. (Names of modules and of parameters contain no dot except between modules.) *)
Definition distinct_names (net : network) : Prop :=
  forall m pn p m' pn' p', first_place net m pn p -> first_place net m' pn' p' -> full_name m pn = full_name m' pn' -> p = p'.
(** The documented rule: the check of the user if it decides, else everything but biases and the excluded module types gets weight decay. *)
Definition decays (o : opts) (m : module) (pn : string) (p : nat) : Prop :=
  match o_include o with
  | Some f => match f m pn p with Some b => b = true | None => endswith pn "bias" = false /\ (if o_blacklist o then m_black_user m else m_black_default m) = false end
  | None => endswith pn "bias" = false /\ (if o_blacklist o then m_black_user m else m_black_default m) = false
  end.
(** The names of the parameters [l], in ascending order *)
Definition sorted_by_name (net : network) (l : list nat) : Prop :=
  exists ns, Forall2 (fun p n => exists m pn, first_place net m pn p /\ n = full_name m pn) l ns /\ StronglySorted (fun a b => String.ltb a b = true) ns.

(** ** C44 *)
Inductive call := SetLearningRate (v : Q) | SetTrainStep (step epoch : nat) (continuous : option Q).
Definition run_call f (c : call) (u : updater) : updater :=
  match c with SetLearningRate v => set_learning_rate f v u | SetTrainStep s e c => set_current_train_step f s e c u end.
Definition run_calls f (cs : list call) (u : updater) : updater := fold_left (fun u c => run_call f c u) cs u.
(** The last learning rate and the last step that were set. *)
Fixpoint last_lr (lr : Q) (cs : list call) : Q := match cs with [] => lr | SetLearningRate v :: cs' => last_lr v cs' | _ :: cs' => last_lr lr cs' end.
Fixpoint last_step (s : nat * nat * option Q) (cs : list call) : nat * nat * option Q := match cs with [] => s | SetTrainStep a b c :: cs' => last_step (a, b, c) cs' | _ :: cs' => last_step s cs' end.
Definition scheduled (f : option (nat -> nat -> option Q -> Q -> Q)) (s : nat * nat * option Q) (lr : Q) : Q :=
  match f with None => lr | Some f => f (fst (fst s)) (snd (fst s)) (snd s) lr end.
