(** Specification for parametrized parameters. *)
From Coq Require Import String Relations.
From Verif Require Import Base PyDict ParamModel.
Local Open Scope nat_scope.

Section Spec.
  Context {V S : Type}.
  Implicit Type w : world V S.

  (** no module is parametrized yet; all parameters exist *)
  Definition start w : Prop :=
    (forall i m, dget (w_mods w) i = Some m -> m_class m = None /\ forall n p, dget (m_attrs m) n = Some (AParam p) -> dget (w_params w) p <> None) /\
    w_classes w = [] /\ (forall p, dget (w_params w) p <> None -> p < w_next w).
  (** the operations of the API, on any module, with any arguments, whether they succeed or fail *)
  Inductive step w : world V S -> Prop :=
  | step_register i n pz keep : step w (fst (register w i n pz keep))
  | step_remove i n : step w (fst (remove w i n))
  | step_set i n v : step w (fst (set w i n v)).
  Inductive reachable : world V S -> Prop :=
  | reach_start w : start w -> reachable w
  | reach_step w w' : reachable w -> step w w' -> reachable w'.

  (** the parameter [n] of module [i] is parametrized by [pz], with the original parameter or without *)
  Definition parametrized w (i : nat) (n : string) (pz : parametrization V S) (orig : option nat) : Prop :=
    exists m pr, dget (w_mods w) i = Some m /\ dget (class_props w (m_class m)) n = Some pr /\ pr_call pr = pz /\ pr_orig pr = orig.
  (** it is a plain parameter: found in the module, and not by its class *)
  Definition plain_param w (i : nat) (n : string) (p : nat) : Prop :=
    (forall pz orig, ~ parametrized w i n pz orig) /\ exists m, dget (w_mods w) i = Some m /\ ~ In n (m_base m) /\ dget (m_attrs m) n = Some (AParam p).
  (** the value of a parameter, the state of a parametrization *)
  Definition value w (p : nat) : option V := dget (w_params w) p.
  Definition state_of w (o : nat) : option S := dget (w_own w) o.
  (** nothing else changed: the other attributes of this module and those of all others *)
  Definition same_attrs_except w w' (i : nat) (n : string) : Prop := forall j k, (j, k) <> (i, n) -> get w' j k = get w j k.
  Definition same_values w w' : Prop := forall p, value w' p = value w p.
  Definition same_states w w' : Prop := forall o, state_of w' o = state_of w o.
End Spec.
