(** Vocabulary for C142. *)
From Coq Require Import String.
From Verif Require Import Base JournalModel.
Local Open Scope nat_scope. Local Open Scope list_scope.

Section Spec.
  Context {V : Type}.
  Implicit Types (ops : list (@op V)).
  (** What was appended, and what was read, in order *)
  Definition appended ops : list (@entry V) := flat_map (fun o => match o with Append e => [e] | _ => [] end) ops.
  Definition read (rs : list (res (@entry V))) : list (@entry V) := flat_map (fun r => match r with Ok e => [e] | Err _ => [] end) rs.
  (** The nodes that were added *)
  Definition nodes ops : list (nat * nat) := flat_map (fun o => match o with AddNode a b => [(a, b)] | _ => [] end) ops.
  (** The entry has the type and the sizes of the template, if there is one. *)
  Definition fits (t : option template) (e : @entry V) : Prop := forall x, t = Some x -> e_out e = Some x.
  Definition has_out (e : @entry V) : Prop := e_out e <> None.
End Spec.
(** The context is accessible: it is the current one, or it is around it. *)
Definition ctx_accessible (ctx cur : cf_ctx) : Prop := exists inner, cur = inner ++ ctx.
