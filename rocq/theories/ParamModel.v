(** Model of /repo/returnn/frontend/parametrize.py: parametrized parameters of modules.

    Modules, classes, parameters and parametrizations are objects with identity: they live in a heap and are referred to by numbers.
    [V] are the values of tensors, [S] is the state of a parametrization with its own parameters. AttributeError is [OtherException].
    The weak reference to the module is modelled as its number (the module stays alive while it is used). *)
From Coq Require Import String.
From Verif Require Import Base PyDict.
Local Open Scope nat_scope.

Section Param.
  Context {V S : Type}.

  (** lines 137-159: what can be given as parametrization. [Transform]: called with the original parameter; if it is a module then it has
      some parameters. [Own]: called without arguments; maybe it has a method [assign]. *)
  Inductive parametrization := Transform (f : V -> V) (n_params : nat) | Own (id : nat) (get : S -> V) (asg : option (V -> S)).
  (** the attributes of an instance *)
  Inductive attr := AParam (p : nat) | ACall (pz : parametrization) | AOther.
  (** lines 181-193 *)
  Record prop := { pr_module : nat; pr_call : parametrization; pr_orig : option nat }.
  (** [m_base]: the names of the attributes (e.g. methods) of the original class; [m_class]: the parametrized class *)
  Record module := { m_base : list string; m_class : option nat; m_attrs : @dict string attr }.
  Record world := { w_mods : @dict nat module; w_classes : @dict nat (@dict string prop); w_params : @dict nat V; w_own : @dict nat S; w_next : nat }.

  Definition set_mod (w : world) (i : nat) (m : module) : world :=
    {| w_mods := dset (w_mods w) i m; w_classes := w_classes w; w_params := w_params w; w_own := w_own w; w_next := w_next w |}.
  Definition set_class (w : world) (c : nat) (ps : @dict string prop) : world :=
    {| w_mods := w_mods w; w_classes := dset (w_classes w) c ps; w_params := w_params w; w_own := w_own w; w_next := w_next w |}.
  Definition set_param (w : world) (p : nat) (v : V) : world :=
    {| w_mods := w_mods w; w_classes := w_classes w; w_params := dset (w_params w) p v; w_own := w_own w; w_next := w_next w |}.
  Definition set_own (w : world) (i : nat) (s : S) : world :=
    {| w_mods := w_mods w; w_classes := w_classes w; w_params := w_params w; w_own := dset (w_own w) i s; w_next := w_next w |}.
  Definition alloc (w : world) : world * nat :=
    ({| w_mods := w_mods w; w_classes := w_classes w; w_params := w_params w; w_own := w_own w; w_next := 1 + w_next w |}, w_next w).
  Definition with_class (m : module) (c : option nat) : module := {| m_base := m_base m; m_class := c; m_attrs := m_attrs m |}.
  Definition with_attr (m : module) (n : string) (a : attr) : module := {| m_base := m_base m; m_class := m_class m; m_attrs := dset (m_attrs m) n a |}.

  Definition class_props (w : world) (c : option nat) : @dict string prop :=
    match c with None => [] | Some c => match dget (w_classes w) c with None => [] | Some ps => ps end end.
  (** [hasattr(module.__class__, name)] *)
  Definition class_has (w : world) (m : module) (n : string) : bool := existsb (String.eqb n) (m_base m) || dhas (class_props w (m_class m)) n.

  (** [parametrization(orig_param)] or [parametrization()] *)
  Definition call_it (w : world) (pz : parametrization) (orig : option nat) : res V :=
    match pz, orig with
    | Transform f _, Some p => match dget (w_params w) p with None => Err KeyError | Some v => Ok (f v) end
    | Own i get _, None => match dget (w_own w) i with None => Err KeyError | Some s => Ok (get s) end
    | _, _ => Err TypeError
    end.

  (** * Access: [module.name], [module.name = tensor]; lines 195-213. A property with [__set__] goes before the attributes of the instance. *)
  Inductive result := RParam (p : nat) | RTensor (v : V) | RObject.
  Definition get (w : world) (i : nat) (n : string) : res result :=
    match dget (w_mods w) i with
    | None => Err KeyError
    | Some m =>
        match dget (class_props w (m_class m)) n with
        | Some pr => let* _ := assert_ (pr_module pr =? i) in let* v := call_it w (pr_call pr) (pr_orig pr) in Ok (RTensor v)
        | None =>
            match dget (m_attrs m) n with
            | Some (AParam p) => Ok (RParam p)
            | Some _ => Ok RObject
            | None => if existsb (String.eqb n) (m_base m) then Ok RObject else Err OtherException
            end
        end
    end.
  Definition set (w : world) (i : nat) (n : string) (v : V) : world * res unit :=
    match dget (w_mods w) i with
    | None => (w, Err KeyError)
    | Some m =>
        match dget (class_props w (m_class m)) n with
        | Some pr =>
            if pr_module pr =? i then
              match pr_orig pr, pr_call pr with
              | Some p, _ => (set_param w p v, Ok tt)
              | None, Own o _ (Some a) => (set_own w o (a v), Ok tt)
              | None, _ => (w, Err OtherException)
              end
            else (w, Err AssertionError)
        | None => (set_mod w i (with_attr m n AOther), Ok tt)
        end
    end.

  (** [module.named_parameters(recurse=False)], module.py 195-208 *)
  Definition named_params (w : world) (i : nat) : list (string * nat) :=
    match dget (w_mods w) i with
    | None => []
    | Some m => flat_map (fun na => match snd na with AParam p => [(fst na, p)] | _ => [] end) (m_attrs m)
    end.

  (** * register_parametrization, lines 23-83 *)
  Definition register (w : world) (i : nat) (n : string) (pz : parametrization) (keep : bool) : world * res unit :=
    match dget (w_mods w) i with
    | None => (w, Err KeyError)
    | Some m =>
        let '(w, m, c) :=
          match m_class m with
          | Some c => (w, m, c)
          | None => let '(w, c) := alloc w in let m := with_class m (Some c) in (set_mod (set_class w c []) i m, m, c)
          end in
        if class_has w m n then (w, Err ValueError)
        else
          match dget (m_attrs m) n with
          | None => (w, Err OtherException)
          | Some (AParam p) =>
              if keep then
                match pz with
                | Transform _ (Datatypes.S _) => (w, Err ValueError)
                | _ => (set_class w c (dset (class_props w (Some c)) n {| pr_module := i; pr_call := pz; pr_orig := Some p |}), Ok tt)
                end
              else
                let w := match pz, dget (w_params w) p with Own o _ (Some a), Some v => set_own w o (a v) | _, _ => w end in
                let w := set_mod w i (with_attr m n (ACall pz)) in
                (set_class w c (dset (class_props w (Some c)) n {| pr_module := i; pr_call := pz; pr_orig := None |}), Ok tt)
          | Some _ => (w, Err TypeError)
          end
    end.

  (** * remove_parametrization, lines 86-104 *)
  Definition remove (w : world) (i : nat) (n : string) : world * res unit :=
    match dget (w_mods w) i with
    | None => (w, Err KeyError)
    | Some m =>
        match m_class m with
        | None => (w, Err ValueError)
        | Some c =>
            match dget (class_props w (Some c)) n with
            | None => (w, Err (if existsb (String.eqb n) (m_base m) then AssertionError else OtherException))
            | Some pr =>
                let ps := ddel (class_props w (Some c)) n in
                let w := set_class w c ps in
                let '(w, m, e) :=
                  match pr_orig pr with
                  | Some _ => (w, m, Ok tt)
                  | None =>
                      match call_it w (pr_call pr) None with
                      | Err e => (w, m, Err e)
                      | Ok v => let '(w, p) := alloc w in let m := with_attr m n (AParam p) in (set_mod (set_param w p v) i m, m, Ok tt)
                      end
                  end in
                match e with
                | Err e => (w, Err e)
                | Ok _ => (match ps with [] => set_mod w i (with_class m None) | _ => w end, Ok tt)
                end
            end
        end
    end.

  (** lines 107-122 *)
  Definition is_parametrized (w : world) (i : nat) (n : option string) : bool :=
    match dget (w_mods w) i with
    | None => false
    | Some m => match m_class m with None => false | Some _ => match n with None => true | Some n => class_has w m n end end
    end.

  (** [copy.deepcopy(module)]: classes are never copied (python copy.py: a subclass of [type] is atomic); parameters are copied, with new
      initial values (parameter.py 116-131). Simplified: other attributes are kept. *)
  Definition copy_attr (init : nat -> V) (wa : world * @dict string attr) (na : string * attr) : world * @dict string attr :=
    let '(w, acc) := wa in
    match snd na with
    | AParam p => let '(w, q) := alloc w in (set_param w q (init p), acc ++ [(fst na, AParam q)])
    | a => (w, acc ++ [(fst na, a)])
    end.
  Definition deepcopy (init : nat -> V) (w : world) (i : nat) : world * nat :=
    match dget (w_mods w) i with
    | None => (w, i)
    | Some m =>
        let '(w, attrs) := fold_left (copy_attr init) (m_attrs m) (w, []) in
        let '(w, j) := alloc w in
        (set_mod w j {| m_base := m_base m; m_class := m_class m; m_attrs := attrs |}, j)
    end.
End Param.
Arguments parametrization : clear implicits.
Arguments attr : clear implicits.
Arguments prop : clear implicits.
Arguments module : clear implicits.
Arguments world : clear implicits.
Arguments result : clear implicits.
