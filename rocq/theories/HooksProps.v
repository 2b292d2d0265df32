(** C115: hooks on methods. *)
From Verif Require Import Base PyDict HooksModel HooksSpec HooksProofs.
Local Open Scope nat_scope.

(** Registering and removing never fails, in whatever order this is done. *)
Theorem C115_total : forall (A V : Type) is_call (ops : list (op A V)), exists s, after is_call ops s.
Proof. intros. apply after_total. Qed.
Print Assumptions C115_total.

(** For methods other than [__call__]: whatever was registered and removed before on whatever objects,
    the method gives its result passed through the active hooks of that object in their order. *)
Theorem C115_method : forall (A V : Type) (orig : nat -> A -> V) (ops : list (op A V)) s o a, after false ops s ->
  gives (fun fuel => call_attr orig fuel s o a) (Ok (expected orig ops o a)).
Proof. intros. now apply attr_ok. Qed.
Print Assumptions C115_method.

(** For [__call__] (forward hooks): the same for [obj(...)] and [obj.__call__(...)],
    for the hooked object and for the others, as long as not more than one object has hooks. *)
Theorem C115_call : forall (A V : Type) (orig : nat -> A -> V) (ops : list (op A V)) s o a, after true ops s -> one_hooked ops ->
  gives (fun fuel => call_op orig fuel s o a) (Ok (expected orig ops o a)) /\
  gives (fun fuel => call_attr orig fuel s o a) (Ok (expected orig ops o a)).
Proof. intros. now apply call_ok. Qed.
Print Assumptions C115_call.

(** After the last hook is removed, the class and the objects are as before. *)
Theorem C115_restored : forall (A V : Type) is_call (ops : list (op A V)) s, after is_call ops s -> (forall o, ~ hooked ops o) ->
  cls s = Func /\ inst s = [].
Proof. intros * H Hn. now apply (none_clean is_call ops). Qed.
Print Assumptions C115_restored.

(** With forward hooks on two objects of one class, no call returns:
    those of objects with hooks recurse endlessly, those of all other objects of this class fail an assertion. *)
Theorem C115_two : forall (A V : Type) (orig : nat -> A -> V) (ops : list (op A V)) s o a, after true ops s -> two_hooked ops ->
  (hooked ops o -> endless (fun fuel => call_op orig fuel s o a) /\ endless (fun fuel => call_attr orig fuel s o a)) /\
  (~ hooked ops o -> gives (fun fuel => call_op orig fuel s o a) (Err AssertionError) /\
                     gives (fun fuel => call_attr orig fuel s o a) (Err AssertionError)).
Proof. intros. now apply call_two. Qed.
Print Assumptions C115_two.

(** examples: the method adds the argument to the number of the object *)
Definition ex_orig (o a : nat) : nat := o + a.
Definition ex_dbl (o a r : nat) : nat := 2 * r.
Definition ex_inc (o a r : nat) : nat := r + 1.

(** So the expected result is not what one gets in general. *)
Theorem C115_call_refuted : ~ (forall (ops : list (op nat nat)) s o a, after true ops s ->
  gives (fun fuel => call_op ex_orig fuel s o a) (Ok (expected ex_orig ops o a))).
Proof.
  intros H. destruct (C115_total nat nat true [Reg 0 ex_dbl false; Reg 1 ex_inc false]) as (s & Hs).
  destruct (H _ s 0 5 Hs) as (n & Hn). specialize (Hn n (le_n _)).
  destruct (C115_two nat nat ex_orig _ s 0 5 Hs) as [H2 _].
  - exists 0, 1. repeat split; [discriminate|discriminate|lia].
  - destruct H2 as [H2 _]; [discriminate|]. rewrite (H2 n) in Hn. discriminate.
Qed.
Print Assumptions C115_call_refuted.

Definition ex_result (is_call : bool) (ops : list (op nat nat)) (o a : nat) : res nat :=
  let* s := exec is_call init [] ops in call_op ex_orig 10 s o a.
(** tests/test_torch_frontend.py 955-1000: call, hook, remove *)
Example ex_none : ex_result true [] 0 5 = Ok 5. Proof. reflexivity. Qed.
Example ex_one : ex_result true [Reg 0 ex_dbl false] 0 5 = Ok 10. Proof. reflexivity. Qed.
Example ex_removed : ex_result true [Reg 0 ex_dbl false; Rem 0] 0 5 = Ok 5. Proof. reflexivity. Qed.
Example ex_order : ex_result true [Reg 3 ex_dbl false; Reg 3 ex_inc false] 3 5 = Ok 17. Proof. reflexivity. Qed.
Example ex_prepend : ex_result true [Reg 3 ex_dbl false; Reg 3 ex_inc true] 3 5 = Ok 18. Proof. reflexivity. Qed.
Example ex_other : ex_result true [Reg 3 ex_dbl false; Reg 3 ex_inc true] 4 5 = Ok 9. Proof. reflexivity. Qed.
Example ex_twice : ex_result true [Reg 3 ex_dbl false; Reg 3 ex_inc true; Rem 0; Rem 0] 3 5 = Ok 9. Proof. reflexivity. Qed.
Example ex_two : ex_result true [Reg 0 ex_dbl false; Reg 1 ex_dbl false] 0 5 = Err OutOfFuel. Proof. reflexivity. Qed.
Example ex_two_other : ex_result true [Reg 0 ex_dbl false; Reg 1 ex_dbl false] 2 5 = Err AssertionError. Proof. reflexivity. Qed.
(** when one of them is removed, all is well again *)
Example ex_two_rem : ex_result true [Reg 0 ex_dbl false; Reg 1 ex_inc false; Rem 0] 1 5 = Ok 7. Proof. reflexivity. Qed.
Example ex_one_hooked : one_hooked ([Reg 0 ex_dbl false; Reg 1 ex_inc false; Rem 0] : list (op nat nat)).
Proof.
  intros o1 o2. unfold hooked, active. cbn. destruct o1 as [|[|]]; cbn; [easy| |easy]. destruct o2 as [|[|]]; cbn; easy.
Qed.
