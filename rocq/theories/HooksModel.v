(** Hooks on methods of objects.

    Models /repo/returnn/frontend/hooks.py.

    All objects are instances of one class, with the method in question defined in that class
    (subclasses are not modelled).  Objects are numbers, the method and the hooks are functions.
    Hooks which register or remove hooks while they are called are not modelled. *)
From Verif Require Import Base PyDict.
Local Open Scope nat_scope.

Section Hooks.
  (** arguments of the method, values, and hook functions *)
  Context {A V : Type}.
  Notation hook := (nat -> A -> V -> V).
  (** the method as it is defined in the class *)
  Variable orig : nat -> A -> V.
  (** attr == "__call__" (hooks.py 71, 78) *)
  Variable is_call : bool.

  (** what is stored as attribute in the class: the function, or a _CallWrapperClass (hooks.py 97-105);
      the number is the identity of the wrapper *)
  Inductive callable := Func | Wrapper (w : nat) (orig_call : callable).

  (** [cls]: the attribute of the class; [inst]: MethodWithHooks.post_hooks of the objects
      which have a MethodWithHooks as instance attribute (hooks.py 59-66), from handle ids to hooks;
      [next_id]: RemovableHandle.next_id (hooks.py 150); [next_w]: the next identity of a wrapper *)
  Record state := mkState { cls : callable; inst : list (nat * list (nat * hook)); next_id : nat; next_w : nat }.
  Definition init : state := mkState Func [] 0 0.

  (** hooks.py 68-72 setup *)
  Definition setup (s : state) (o : nat) : state :=
    mkState (if is_call then Wrapper (next_w s) (cls s) else cls s) (dset (inst s) o []) (next_id s) (S (next_w s)).

  (** hooks.py 42-57 MethodWithHooks.get; the assertion in 47-51 holds always here, as the attribute comes from the class.
      Returns the hooks dict as well. *)
  Definition get (s : state) (o : nat) : state * list (nat * hook) :=
    match dget (inst s) o with
    | Some hs => (s, hs)
    | None => (setup s o, [])
    end.

  (** hooks.py 18-32 setup_post_hook_on_method, 126-139 _register_new_hook; the handle is the object and its id *)
  Definition register (s : state) (o : nat) (h : hook) (prepend : bool) : state * (nat * nat) :=
    let (s1, hs) := get s o in
    let id := next_id s1 in
    let hs' := if prepend then (id, h) :: hs else hs ++ [(id, h)] in
    (mkState (cls s1) (dset (inst s1) o hs') (S id) (next_w s1), (o, id)).

  (** hooks.py 74-81 uninstall *)
  Definition uninstall (s : state) (o : nat) : res state :=
    let inst' := ddel (inst s) o in
    if is_call then
      match cls s with
      | Wrapper _ oc => Ok (mkState oc inst' (next_id s) (next_w s))
      | Func => Err AssertionError
      end
    else Ok (mkState (cls s) inst' (next_id s) (next_w s)).

  (** hooks.py 158-165 RemovableHandle.remove.  The weak reference to the dict of hooks is dead
      when the method was uninstalled; ids are not used twice, so this is the same as the lookup
      in the current dict of the object. *)
  Definition remove (s : state) (hd : nat * nat) : res state :=
    let (o, id) := hd in
    match dget (inst s) o with
    | None => Ok s
    | Some hs =>
      if dhas hs id then
        let hs' := ddel hs id in
        let s' := mkState (cls s) (dset (inst s) o hs') (next_id s) (next_w s) in
        match hs' with
        | [] => uninstall s' o
        | _ => Ok s'
        end
      else Ok s
    end.

  (** hooks.py 92-93: the loop over the hooks *)
  Definition run_hooks (hs : list (nat * hook)) (o : nat) (a : A) (r : V) : V :=
    fold_left (fun r kh => snd kh o a r) hs r.

  (** A call of the attribute [c] of the class with the object as first argument:
      the function itself, or hooks.py 107-118 _CallWrapperClass.__call__.
      The nested call is hooks.py 87-94 MethodWithHooks.__call__.
      [fuel] is the depth of the stack: OutOfFuel is the RecursionError of python. *)
  Fixpoint run (fuel : nat) (s : state) (c : callable) (o : nat) (a : A) : res V :=
    match fuel with
    | O => Err OutOfFuel
    | S f =>
      match c with
      | Func => Ok (orig o a)
      | Wrapper w oc =>
        match dget (inst s) o with
        | Some hs =>
          let* r := run f s (match cls s with Wrapper _ oc' => oc' | Func => Func end) o a in
          Ok (run_hooks hs o a r)
        | None =>
          match cls s with
          | Wrapper w' _ => if w' =? w then run f s oc o a else Err AssertionError
          | Func => Err AssertionError
          end
        end
      end
    end.

  (** obj(...) for attr "__call__": python takes the attribute of the class *)
  Definition call_op (fuel : nat) (s : state) (o : nat) (a : A) : res V := run fuel s (cls s) o a.

  (** obj.attr(...): the instance attribute if there is one (hooks.py 87-94), otherwise the one of the class *)
  Definition call_attr (fuel : nat) (s : state) (o : nat) (a : A) : res V :=
    match dget (inst s) o with
    | Some hs =>
      let* r := run fuel s (match cls s with Wrapper _ oc' => oc' | Func => Func end) o a in
      Ok (run_hooks hs o a r)
    | None => run fuel s (cls s) o a
    end.
End Hooks.
Arguments state A V : clear implicits.
