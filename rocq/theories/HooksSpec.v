(** Specification of hooks: which hooks are active, and what a call gives. *)
From Verif Require Import Base PyDict HooksModel.
Local Open Scope nat_scope.

Section Spec.
  Context {A V : Type}.
  Notation hook := (nat -> A -> V -> V).

  (** what a user does: register a hook on an object, remove the hook of the n-th registration *)
  Inductive op := Reg (o : nat) (h : hook) (prepend : bool) | Rem (n : nat).

  (** the registrations in the order in which the hooks are called: number of the registration, object, hook *)
  Fixpoint active_from (n : nat) (l : list (nat * (nat * hook))) (ops : list op) : list (nat * (nat * hook)) :=
    match ops with
    | [] => l
    | Reg o h true :: ops' => active_from (S n) ((n, (o, h)) :: l) ops'
    | Reg o h false :: ops' => active_from (S n) (l ++ [(n, (o, h))]) ops'
    | Rem k :: ops' => active_from n (filter (fun x => negb (fst x =? k)) l) ops'
    end.
  Definition active (ops : list op) (o : nat) : list hook :=
    map (fun x => snd (snd x)) (filter (fun x => fst (snd x) =? o) (active_from 0 [] ops)).
  (** the documented result: that of the method, passed through the hooks *)
  Definition expected (orig : nat -> A -> V) (ops : list op) (o : nat) (a : A) : V :=
    fold_left (fun r (h : hook) => h o a r) (active ops o) (orig o a).

  (** the program which does this; it keeps the handles *)
  Fixpoint exec (is_call : bool) (s : state A V) (hds : list (nat * nat)) (ops : list op) : res (state A V) :=
    match ops with
    | [] => Ok s
    | Reg o h p :: ops' => let (s', hd) := register is_call s o h p in exec is_call s' (hds ++ [hd]) ops'
    | Rem k :: ops' =>
      match nth_error hds k with
      | Some hd => let* s' := remove is_call s hd in exec is_call s' hds ops'
      | None => exec is_call s hds ops'
      end
    end.
  (** [s] is the state after the operations *)
  Definition after (is_call : bool) (ops : list op) (s : state A V) : Prop := exec is_call init [] ops = Ok s.

  Definition hooked (ops : list op) (o : nat) : Prop := active ops o <> [].
  Definition one_hooked (ops : list op) : Prop := forall o1 o2, hooked ops o1 -> hooked ops o2 -> o1 = o2.
  Definition two_hooked (ops : list op) : Prop := exists o1 o2, hooked ops o1 /\ hooked ops o2 /\ o1 <> o2.
End Spec.
Arguments op A V : clear implicits.

(** a computation with a bound on the stack gives [r], given enough stack *)
Definition gives {V} (f : nat -> res V) (r : res V) : Prop := exists n, forall fuel, n <= fuel -> f fuel = r.
(** it exceeds any stack *)
Definition endless {V} (f : nat -> res V) : Prop := forall fuel, f fuel = Err OutOfFuel.
