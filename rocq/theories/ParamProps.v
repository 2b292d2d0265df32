(** Parametrized parameters. *)
From Coq Require Import String.
From Verif Require Import Base PyDict ParamModel ParamSpec ParamProofs.
Local Open Scope nat_scope.

(** All theorems hold in every state that can be reached by the functions of the API. *)

(** Registering a transformation: the parameter is parametrized then, and nothing else changes; the parameters of all modules, with their
    names and values, are the same. *)
Theorem C120_register : forall (V S : Type) (w : world V S) i n p f, reachable w -> plain_param w i n p ->
  exists w', register w i n (Transform f 0) true = (w', Ok tt) /\ reachable w' /\ parametrized w' i n (Transform f 0) (Some p) /\
    same_attrs_except w w' i n /\ same_values w w' /\ same_states w w' /\ forall j, named_params w' j = named_params w j.
Proof. intros V S. exact register_keep. Qed.
Print Assumptions C120_register.

(** Reading the attribute always gives the transformation of the current value of the original parameter, which is still found by its name. *)
Theorem C120_read : forall (V S : Type) (w : world V S) i n f k p, reachable w -> parametrized w i n (Transform f k) (Some p) ->
  exists v, value w p = Some v /\ get w i n = Ok (RTensor (f v)) /\ In (n, p) (named_params w i).
Proof. intros V S. exact read_keep. Qed.
Print Assumptions C120_read.

(** Assigning to the attribute sets the original parameter, and nothing else. *)
Theorem C120_write : forall (V S : Type) (w : world V S) i n pz p v, reachable w -> parametrized w i n pz (Some p) ->
  exists w', set w i n v = (w', Ok tt) /\ reachable w' /\ value w' p = Some v /\ (forall q, q <> p -> value w' q = value w q) /\ same_states w w' /\
    (forall j k pz' orig, parametrized w' j k pz' orig <-> parametrized w j k pz' orig) /\ (forall j, named_params w' j = named_params w j).
Proof. intros V S. exact write_keep. Qed.
Print Assumptions C120_write.

(** Removing: the attribute is the original parameter again, with its current value; other parametrizations stay, and the module is
    reported as parametrized iff there are some. *)
Theorem C120_remove : forall (V S : Type) (w : world V S) i n pz p, reachable w -> parametrized w i n pz (Some p) ->
  exists w', remove w i n = (w', Ok tt) /\ reachable w' /\ plain_param w' i n p /\ get w' i n = Ok (RParam p) /\ same_attrs_except w w' i n /\ same_values w w' /\ same_states w w' /\
    is_parametrized w' i (Some n) = false /\ (is_parametrized w' i None = true <-> exists k pz orig, k <> n /\ parametrized w i k pz orig) /\
    (forall j, named_params w' j = named_params w j).
Proof. intros V S. exact remove_keep_ok. Qed.
Print Assumptions C120_remove.

(** Replacing the parameter by a parametrization with its own state: the state is set from the value, and what the attribute gives is
    computed from the state. Other attributes do not change, unless they have the same parametrization. *)
Theorem C120_register_own : forall (V S : Type) (w : world V S) i n p v o g a, reachable w -> plain_param w i n p -> value w p = Some v ->
  exists w', register w i n (Own o g a) false = (w', Ok tt) /\ reachable w' /\ parametrized w' i n (Own o g a) None /\
    (forall j k, (j, k) <> (i, n) -> (forall g' a', ~ parametrized w j k (Own o g' a') None) -> get w' j k = get w j k) /\ same_values w w' /\
    (forall o', o' <> o -> state_of w' o' = state_of w o') /\
    state_of w' o = match a with Some a => Some (a v) | None => state_of w o end.
Proof. intros V S. exact register_own. Qed.
Print Assumptions C120_register_own.

Theorem C120_read_own : forall (V S : Type) (w : world V S) i n o g a s, reachable w -> parametrized w i n (Own o g a) None -> state_of w o = Some s ->
  get w i n = Ok (RTensor (g s)).
Proof. intros V S. exact read_own. Qed.
Print Assumptions C120_read_own.

Theorem C120_write_own : forall (V S : Type) (w : world V S) i n o g a v, reachable w -> parametrized w i n (Own o g a) None ->
  match a with
  | None => set w i n v = (w, Err OtherException)
  | Some a => exists w', set w i n v = (w', Ok tt) /\ reachable w' /\ same_values w w' /\ state_of w' o = Some (a v) /\ (forall q, q <> o -> state_of w' q = state_of w q) /\
      (forall j k pz' orig, parametrized w' j k pz' orig <-> parametrized w j k pz' orig)
  end.
Proof. intros V S. exact write_own. Qed.
Print Assumptions C120_write_own.

(** Removing this one gives a new parameter with the current value. *)
Theorem C120_remove_own : forall (V S : Type) (w : world V S) i n o g a s, reachable w -> parametrized w i n (Own o g a) None -> state_of w o = Some s ->
  exists w' p, remove w i n = (w', Ok tt) /\ reachable w' /\ value w p = None /\ plain_param w' i n p /\ get w' i n = Ok (RParam p) /\ value w' p = Some (g s) /\
    same_attrs_except w w' i n /\ (forall q, q <> p -> value w' q = value w q) /\ same_states w w' /\
    is_parametrized w' i (Some n) = false /\ (is_parametrized w' i None = true <-> exists k pz orig, k <> n /\ parametrized w i k pz orig).
Proof. intros V S. exact remove_own_ok. Qed.
Print Assumptions C120_remove_own.

(** There is one parametrization for a parameter; a second one is refused, and nothing changes. *)
Theorem C120_twice : forall (V S : Type) (w : world V S) i n pz orig pz' keep, reachable w -> parametrized w i n pz orig -> register w i n pz' keep = (w, Err ValueError).
Proof. intros V S. exact register_twice. Qed.
Print Assumptions C120_twice.

(** A registration that fails for whatever reason changes no attribute and no value. *)
Theorem C120_failed : forall (V S : Type) (w : world V S) i n pz keep e, reachable w -> snd (register w i n pz keep) = Err e ->
  let w' := fst (register w i n pz keep) in
  (forall j k, get w' j k = get w j k) /\ same_values w w' /\ same_states w w' /\ (forall j k pz' orig, parametrized w' j k pz' orig <-> parametrized w j k pz' orig).
Proof. intros V S. exact register_failed. Qed.
Print Assumptions C120_failed.

(** * Examples and findings *)
(** a linear layer (module 0) with the parameters 1 and 2 *)
Definition linear : world nat nat :=
  {| w_mods := [(0, {| m_base := ["__call__"%string]; m_class := None; m_attrs := [("weight"%string, AParam 1); ("in_dim"%string, AOther); ("bias"%string, AParam 2)] |})];
     w_classes := []; w_params := [(1, 7); (2, 5)]; w_own := [(0, 0)]; w_next := 3 |}.
Example linear_start : start linear.
Proof.
  split; [|split; [easy|]].
  - intros i m H. apply dget_In in H. destruct H as [[= <- <-]|[]]. split; [reflexivity|]. intros n p H. apply dget_In in H.
    destruct H as [X|[X|[X|[]]]]; inversion X; subst; discriminate.
  - intros p H. apply dget_keys in H. cbn in H. cbn. lia.
Qed.
Definition doubled : parametrization nat nat := Transform (fun v => 2 * v) 0.
Example linear_plain : plain_param linear 0 "weight" 1.
Proof. split; [|eexists; split; [reflexivity|]; split; [intros [H|[]]; discriminate|reflexivity]]. intros pz orig (m & pr & [= <-] & H & _). easy. Qed.
(** as in the test: get, names, remove; here also with an assignment *)
Definition linear1 := fst (register linear 0 "weight" doubled true).
Definition linear2 := fst (set linear1 0 "weight" 4).
Definition linear3 := fst (remove linear2 0 "weight").
Example linear_run : get linear1 0 "weight" = Ok (RTensor 14) /\ get linear1 0 "bias" = Ok (RParam 2) /\ named_params linear1 0 = [("weight"%string, 1); ("bias"%string, 2)] /\
  is_parametrized linear1 0 (Some "weight"%string) = true /\ is_parametrized linear1 0 (Some "bias"%string) = false /\
  get linear2 0 "weight" = Ok (RTensor 8) /\ get linear3 0 "weight" = Ok (RParam 1) /\ value linear3 1 = Some 4 /\ is_parametrized linear3 0 None = false.
Proof. repeat split. Qed.
Lemma linear1_reachable : reachable linear1.
Proof. eapply reach_step; [apply reach_start, linear_start|constructor]. Qed.
(** a parametrization with its own state, which holds half of the value *)
Definition halves : parametrization nat nat := Own 0 (fun s => s + s) (Some Nat.div2).
Example own_run :
  let w := fst (register linear 0 "weight" halves false) in
  get w 0 "weight" = Ok (RTensor 6) /\ named_params w 0 = [("bias"%string, 2)] /\ get (fst (set w 0 "weight" 8)) 0 "weight" = Ok (RTensor 8) /\
  value (fst (remove w 0 "weight")) 4 = Some 6.
Proof. repeat split. Qed.

(** Finding: if the registration of an attribute which is no parameter fails, the module is reported as parametrized from then on; there is
    no parametrization which could be removed. *)
Theorem C120_failed_refuted : exists (w : world nat nat) i n pz keep, reachable w /\ snd (register w i n pz keep) = Err TypeError /\
  is_parametrized w i None = false /\ is_parametrized (fst (register w i n pz keep)) i None = true /\
  forall k, snd (remove (fst (register w i n pz keep)) i k) <> Ok tt.
Proof.
  exists linear, 0, "in_dim"%string, doubled, true. split; [apply reach_start, linear_start|]. split; [reflexivity|]. split; [reflexivity|]. split; [reflexivity|].
  intros k. vm_compute. discriminate.
Qed.
Print Assumptions C120_failed_refuted.

(** Finding: with a parametrized parameter, every attribute of the class, e.g. a method, is reported as parametrized. *)
Theorem C120_is_parametrized_refuted : exists (w : world nat nat) i n, reachable w /\ is_parametrized w i (Some n) = true /\ (forall pz orig, ~ parametrized w i n pz orig) /\
  snd (remove w i n) = Err AssertionError.
Proof.
  exists linear1, 0, "__call__"%string. split; [exact linear1_reachable|]. split; [reflexivity|]. split; [|reflexivity].
  intros pz orig (m & pr & [= <-] & H & _). easy.
Qed.
Print Assumptions C120_is_parametrized_refuted.

(** A deep copy has the same attributes in the same order, its parameters are new ones with new initial values, and nothing else changes. *)
Theorem C120_deepcopy : forall (V S : Type) (init : nat -> V) (w : world V S) i m, reachable w -> dget (w_mods w) i = Some m ->
  exists w' j m', deepcopy init w i = (w', j) /\ dget (w_mods w') j = Some m' /\ m_base m' = m_base m /\ m_class m' = m_class m /\
    w_next w <= j /\ (forall k, k <> j -> dget (w_mods w') k = dget (w_mods w) k) /\ (forall p, value w p <> None -> value w' p = value w p) /\
    w_classes w' = w_classes w /\ w_own w' = w_own w /\
    Forall2 (fun a b => fst b = fst a /\ match snd a with AParam p => exists q, snd b = AParam q /\ value w q = None /\ value w' q = Some (init p) | x => snd b = x end)
      (m_attrs m) (m_attrs m').
Proof. intros V S init w i m R. exact (deepcopy_ok init w i m (reachable_wf w R)). Qed.
Print Assumptions C120_deepcopy.

(** Finding: a deep copy of a module with a parametrized parameter has the same class. So its parameter cannot be read; registering another
    parameter of the copy breaks the original module; removing the parametrization from the copy removes it from the original instead. *)
Theorem C120_deepcopy_refuted : exists (w : world nat nat) i n k, reachable w /\ get w i n = Ok (RTensor 14) /\ get w i k = Ok (RParam 2) /\
  forall init, let '(w', j) := deepcopy init w i in
    get w' i n = Ok (RTensor 14) /\ get w' j n = Err AssertionError /\
    (exists w2, register w' j k doubled true = (w2, Ok tt) /\ get w2 i k = Err AssertionError) /\
    (exists w2, remove w' j n = (w2, Ok tt) /\ get w2 i n = Ok (RParam 1)).
Proof.
  exists linear1, 0, "weight"%string, "bias"%string. split; [exact linear1_reachable|]. split; [reflexivity|]. split; [reflexivity|].
  intros init. cbn. repeat split; eexists; split; reflexivity.
Qed.
Print Assumptions C120_deepcopy_refuted.
