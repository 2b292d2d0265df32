(** Model of the names of modules and parameters: returnn/frontend/module.py class Module, and of the conversion
    to a torch module: returnn/torch/frontend/bridge.py. *)
From Coq Require Import String Ascii.
From Verif Require Import Base PyDict.
From Verif Require SeqOrderModel.
Local Open Scope nat_scope.

(** The value of an attribute of a module: another module, a parameter, anything else. Modules and parameters are
    python objects, given by their identity. *)
Inductive attr := AMod (m : nat) | AParam (p : nat) | AOther (x : nat).
(** All modules: [vars(mod)] of each one. Class attributes (methods, properties) are not modelled. *)
Definition heap := list (@dict string attr).
Definition vars (h : heap) (m : nat) : @dict string attr := nth m h [].

Definition mem (x : nat) (l : list nat) : bool := existsb (Nat.eqb x) l.
(** [str.endswith(".")] *)
Fixpoint ends_with_dot (s : string) : bool :=
  match s with
  | EmptyString => false
  | String c EmptyString => Ascii.eqb c "."
  | String _ s' => ends_with_dot s'
  end.

(** module.py 189 *)
Definition sub_prefix (prefix name : string) : string :=
  (prefix ++ (if negb (String.eqb prefix "") && negb (ends_with_dot prefix) then "." else "") ++ name)%string.

(** module.py 184-193, the body of the loop over the attributes of one module: what is yielded, the new memo and the
    new queue *)
Fixpoint scan_children (recurse : bool) (prefix : string) (items : list (string * attr)) (memo : list nat)
    (queue : list (string * nat)) : list (string * nat) * list nat * list (string * nat) :=
  match items with
  | [] => ([], memo, queue)
  | (name, AMod m) :: rest =>
      if mem m memo then scan_children recurse prefix rest memo queue
      else
        let sub := sub_prefix prefix name in
        let '(out, memo', queue') :=
          scan_children recurse prefix rest (m :: memo) (if recurse then queue ++ [(sub, m)] else queue) in
        ((sub, m) :: out, memo', queue')
  | _ :: rest => scan_children recurse prefix rest memo queue
  end.

(** module.py 181-193 *)
Fixpoint modules_loop (fuel : nat) (h : heap) (recurse : bool) (memo : list nat) (queue : list (string * nat))
    : res (list (string * nat)) :=
  match fuel with
  | 0 => Err OutOfFuel
  | S fuel =>
      match queue with
      | [] => Ok []
      | (prefix, md) :: queue =>
          let '(out, memo, queue) := scan_children recurse prefix (vars h md) memo queue in
          let* rest := modules_loop fuel h recurse memo queue in
          Ok (out ++ rest)
      end
  end.

(** Module.named_modules, module.py 163-193, with the default memo and prefix. Every module enters the queue at most
    once, so the number of modules bounds the iterations. *)
Definition named_modules (h : heap) (self : nat) (recurse include_self : bool) : res (list (string * nat)) :=
  let* rest := modules_loop (2 + length h) h recurse [self] [(""%string, self)] in
  Ok ((if include_self then [(""%string, self)] else []) ++ rest).

(** module.py 204-208 *)
Fixpoint scan_params (prefix : string) (items : list (string * attr)) (memo : list nat) : list (string * nat) * list nat :=
  match items with
  | [] => ([], memo)
  | (key, AParam p) :: rest =>
      if mem p memo then scan_params prefix rest memo
      else
        let sub := (prefix ++ (if String.eqb prefix "" then "" else ".") ++ key)%string in
        let '(out, memo') := scan_params prefix rest (p :: memo) in
        ((sub, p) :: out, memo')
  | _ :: rest => scan_params prefix rest memo
  end.
(** module.py 203-208 *)
Fixpoint params_loop (h : heap) (mods : list (string * nat)) (memo : list nat) : list (string * nat) :=
  match mods with
  | [] => []
  | (prefix, m) :: rest =>
      let '(out, memo) := scan_params prefix (vars h m) memo in
      out ++ params_loop h rest memo
  end.
(** Module.named_parameters, module.py 195-208 *)
Definition named_parameters (h : heap) (self : nat) (recurse : bool) : res (list (string * nat)) :=
  let* mods := if recurse then named_modules h self true true else Ok [(""%string, self)] in
  Ok (params_loop h mods []).

(** Module.apply, module.py 226-236: the modules for which the function is called, in this order. No fuel: the
    recursion limit of python. *)
Fixpoint apply_trace (fuel : nat) (h : heap) (self : nat) : res (list nat) :=
  match fuel with
  | 0 => Err OutOfFuel
  | S fuel =>
      let* children := named_modules h self false false in
      let* parts := mapM (fun nm => apply_trace fuel h (snd nm)) children in
      Ok (concat parts ++ [self])
  end.

(** [getattr(mod, name)]: AttributeError *)
Definition getattr (h : heap) (m : nat) (name : string) : res attr :=
  match dget (vars h m) name with Some a => Ok a | None => Err OtherException end.
(** module.py 118-123 *)
Fixpoint walk (h : heap) (md : nat) (atoms : list string) : res nat :=
  match atoms with
  | [] => Ok md
  | item :: rest =>
      let* a := getattr h md item in
      match a with
      | AMod m => walk h m rest
      | _ => Err OtherException
      end
  end.
(** Module.get_deep, module.py 108-125 *)
Definition get_deep (h : heap) (self : nat) (target : string) : res attr :=
  if String.eqb target "" then Ok (AMod self)
  else
    let atoms := SeqOrderModel.split_on "." target in
    let* md := walk h self (removelast atoms) in
    getattr h md (last atoms ""%string).

(** [str.rsplit(".", n)]: at most n splits, from the right *)
Definition rsplit_dot (s : string) (n : nat) : list string :=
  let parts := SeqOrderModel.split_on "." s in
  if length parts <=? n + 1 then parts
  else String.concat "." (firstn (length parts - n) parts) :: skipn (length parts - n) parts.
Fixpoint has_dot (s : string) : bool := match s with EmptyString => false | String c s' => Ascii.eqb c "." || has_dot s' end.
Definition set_nth (h : heap) (m : nat) (d : @dict string attr) : heap := firstn m h ++ d :: skipn (S m) h.
Definition setattr (h : heap) (m : nat) (name : string) (v : attr) : heap := set_nth h m (dset (vars h m) name v).
(** Module.set_deep, module.py 127-142. Unpacking a list of another length than two raises ValueError. *)
Definition set_deep (h : heap) (self : nat) (target : string) (value : attr) : res heap :=
  if String.eqb target "" then Err OtherException
  else if has_dot target then
    match rsplit_dot target 2 with
    | [prefix; target] =>
        let* md := get_deep h self prefix in
        match md with
        | AMod m => Ok (setattr h m target value)
        | _ => Err OtherException
        end
    | _ => Err ValueError
    end
  else Ok (setattr h self target value).

(** A torch module as bridge.py builds it: its own parameters, its own buffers and its children. Every conversion
    gives a new torch module, also for a module which was converted before. *)
Inductive pt := PT (params buffers : list (string * nat)) (children : list (string * pt)).
Definition pt_params (t : pt) := let 'PT p _ _ := t in p.
Definition pt_buffers (t : pt) := let 'PT _ b _ := t in b.
Definition pt_children (t : pt) := let 'PT _ _ c := t in c.

(** The check of names in torch: register_parameter, register_buffer and add_module of torch.nn.Module raise KeyError
    for an empty name and one with a dot. The check for other attributes of that name is not modelled. *)
Definition check_name (name : string) : res unit :=
  if String.eqb name "" || has_dot name then Err KeyError else Ok tt.

(** RFModuleAsPTModule.__init__, bridge.py 106-134, and rf_module_to_pt_module 37-53. [aux p] is the attribute
    [auxiliary] of the parameter. Not modelled: attributes which are torch objects, modules which wrap a torch module.
    No fuel: the recursion limit of python. *)
Fixpoint to_pt (fuel : nat) (h : heap) (aux : nat -> bool) (as_buffers : bool) (m : nat) : res pt :=
  match fuel with
  | 0 => Err OutOfFuel
  | S fuel =>
      (fix loop (items : list (string * attr)) : res pt :=
         match items with
         | [] => Ok (PT [] [] [])
         | (name, a) :: rest =>
             match a with
             | AParam p =>
                 let* _ := check_name name in
                 let* t := loop rest in
                 if aux p && as_buffers then Ok (PT (pt_params t) ((name, p) :: pt_buffers t) (pt_children t))
                 else Ok (PT ((name, p) :: pt_params t) (pt_buffers t) (pt_children t))
             | AMod k =>
                 let* c := to_pt fuel h aux as_buffers k in
                 let* _ := check_name name in
                 let* t := loop rest in
                 Ok (PT (pt_params t) (pt_buffers t) ((name, c) :: pt_children t))
             | AOther _ => loop rest
             end
         end) (vars h m)
  end.

(** torch.nn.Module.state_dict: names and tensors. The prefix of a child is extended by its name and a dot. *)
Fixpoint state_dict (prefix : string) (t : pt) : list (string * nat) :=
  match t with
  | PT params buffers children =>
      map (fun np => ((prefix ++ fst np)%string, snd np)) params
      ++ map (fun np => ((prefix ++ fst np)%string, snd np)) buffers
      ++ flat_map (fun nc => state_dict (prefix ++ fst nc ++ ".")%string (snd nc)) children
  end.
(** torch.nn.Module.named_modules: depth first. All torch modules of the tree are different objects. *)
Fixpoint pt_modules (prefix : string) (t : pt) : list (string * pt) :=
  match t with
  | PT _ _ children =>
      (prefix, t) :: flat_map (fun nc => pt_modules (prefix ++ (if String.eqb prefix "" then "" else ".") ++ fst nc)%string (snd nc)) children
  end.
(** torch.nn.Module._named_members: every tensor once, under its first name *)
Fixpoint members (l : list (string * nat)) (memo : list nat) : list (string * nat) :=
  match l with
  | [] => []
  | (n, p) :: rest => if mem p memo then members rest memo else (n, p) :: members rest (p :: memo)
  end.
Definition own (get : pt -> list (string * nat)) (l : list (string * pt)) : list (string * nat) :=
  flat_map (fun x => map (fun np => ((fst x ++ (if String.eqb (fst x) "" then "" else ".") ++ fst np)%string, snd np)) (get (snd x))) l.
(** torch.nn.Module.named_parameters and named_buffers *)
Definition pt_named_parameters (t : pt) : list (string * nat) := members (own pt_params (pt_modules "" t)) [].
Definition pt_named_buffers (t : pt) : list (string * nat) := members (own pt_buffers (pt_modules "" t)) [].
