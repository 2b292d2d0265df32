(** Model of the optimizer handling of the PyTorch engine: /repo/returnn/torch/updater.py.

    A parameter is a number (its identity), a network is the list of its modules in the order of [named_modules()] (which gives a shared module only once). The user functions (include check, dynamic learning rate) are arbitrary functions. The optimizer class is the list of the names of its keyword arguments. *)
From Coq Require Import String QArith.
From Verif Require Import Base PyDict.
Local Open Scope string_scope. Local Open Scope nat_scope. Local Open Scope list_scope.
Local Notation length := List.length.

(** ** The network *)
(** [m_black cls] stands for [isinstance(module, cls) or isinstance(rf_module, cls)] with [cls] the default list of module types ([LayerNorm], [Embedding]) or the list given by the user; [m_params] are [named_parameters(recurse=False)]. *)
Record module := mk_module { m_name : string; m_black_default : bool; m_black_user : bool; m_params : list (string * nat) }.
Definition network := list module.
(** updater.py:532: ["%s.%s" % (module_name, param_name) if module_name else param_name]; torch builds the names of [named_parameters()] in the same way. *)
Definition full_name (m : module) (p : string) : string := if String.eqb (m_name m) "" then p else m_name m ++ "." ++ p.
Definition mem (x : nat) (l : list nat) : bool := existsb (Nat.eqb x) l.
(** The parameters as they are visited, each only once: torch's [named_parameters()], and the loops in updater.py:522-531 with [visited_params]. Of a module that gives the same parameter under two names also only the first is taken. *)
Fixpoint visit_params (m : module) (l : list (string * nat)) (visited : list nat) : list (module * string * nat) * list nat :=
  match l with
  | [] => ([], visited)
  | (pn, p) :: l' =>
      if mem p visited then visit_params m l' visited
      else let '(r, v) := visit_params m l' (p :: visited) in ((m, pn, p) :: r, v)
  end.
Fixpoint visit (net : network) (visited : list nat) : list (module * string * nat) :=
  match net with
  | [] => []
  | m :: net' => let '(r, v) := visit_params m (m_params m) visited in r ++ visit net' v
  end.
Definition named_parameters (net : network) : list (string * nat) := map (fun x => let '(m, pn, p) := x in (full_name m pn, p)) (visit net []).

(** ** Parameter groups: [_get_optimizer_param_groups], updater.py:450-563 *)
(** python [str.endswith] *)
Definition endswith (s suffix : string) : bool :=
  let n := String.length s in let k := String.length suffix in (k <=? n) && String.eqb (substring (n - k) k s) suffix.
Definition include_check := module -> string -> nat -> option bool.
(** The option dict [optimizer_opts] of the user, without ["class"]: [None] if the key is not there. [o_other] are the other keys. ([param_groups_custom] is not modelled: then everything is up to the user.) *)
Record opts := mk_opts {
  o_weight_decay : option Q; o_blacklist : bool; (* weight_decay_modules_blacklist given *) o_include : option include_check;
  o_lr_multiplier : option Q; o_other : list string }.
Fixpoint insert_name (x : string) (l : list string) : list string :=
  match l with [] => [x] | y :: l' => if String.leb x y then x :: l else y :: insert_name x l' end.
Fixpoint sort_names (l : list string) : list string := match l with [] => [] | x :: l' => insert_name x (sort_names l') end.
(** [params] and [weight_decay] of a group; [None]: left to the default of the optimizer *)
Record group := mk_group { g_params : list nat; g_weight_decay : option Q }.
(** the loop, lines 522-553: is the parameter added to [wd_params]? *)
Definition in_wd (o : opts) (x : module * string * nat) : bool :=
  let '(m, pn, p) := x in
  match match o_include o with
        | None => None
        | Some f => f m pn p  (* full_param_name=param_name *)
        end with
  | Some b => b
  | None => negb (endswith pn "bias" || (if o_blacklist o then m_black_user m else m_black_default m))
  end.
Definition full_name' (x : module * string * nat) : string := let '(m, pn, _) := x in full_name m pn.
(** [{pn: p for pn, p in self.network.named_parameters()}] *)
Definition to_dict {V} (l : list (string * V)) : list (string * V) := fold_left (fun d kv => dset d (fst kv) (snd kv)) l [].
(** [set.add] *)
Definition to_set (l : list string) : list string := fold_left (fun s x => if existsb (String.eqb x) s then s else s ++ [x]) l [].
Definition lookup {V} (d : list (string * V)) (k : string) : res V := match dget d k with Some v => Ok v | None => Err KeyError end.
Definition has_wd (kwargs : list string) : bool := existsb (String.eqb "weight_decay") kwargs.
(** the keys of the options which are left for the constructor of the optimizer *)
Definition keys_left (o : opts) (popped : bool) : list string :=
  (match o_weight_decay o with Some _ => ["weight_decay"] | None => [] end) ++
  (if popped then [] else (if o_blacklist o then ["weight_decay_modules_blacklist"] else []) ++ match o_include o with Some _ => ["weight_decay_custom_include_check"] | None => [] end) ++
  o_other o.
(** Returns the groups and the keys that are left in the options. [decouple_constraints] is not set to False. *)
Definition get_param_groups (net : network) (kwargs : list string) (o : opts) : res (list group * list string) :=
  let whole := [mk_group (map snd (named_parameters net)) None] in
  if negb (has_wd kwargs) then
    let* _ := assert_ (match o_weight_decay o with None => true | Some _ => false end) in Ok (whole, keys_left o false)
  else
    let w := match o_weight_decay o with Some w => w | None => 0%Q end in
    if Qeq_bool w 0 then Ok (whole, keys_left o false)
    else
      let vs := visit net [] in
      let wd := to_set (map full_name' (filter (in_wd o) vs)) in
      let no_wd := to_set (map full_name' (filter (fun x => negb (in_wd o x)) vs)) in
      let param_dict := to_dict (named_parameters net) in
      let* a := mapM (lookup param_dict) (sort_names wd) in
      let* b := mapM (lookup param_dict) (sort_names no_wd) in
      Ok ([mk_group a (Some w); mk_group b (Some 0%Q)], keys_left o true).

(** ** Learning rate: updater.py:117-214, 380-437 *)
(** The state of the updater, and the optimizer: for each group its parameters, weight decay and learning rate. *)
Record updater := mk_updater { u_lr : Q; u_effective : Q; u_step : nat; u_epoch : nat; u_continuous : option Q; u_groups : option (list (group * Q)) }.
Section Lr.
Variable f : option (nat -> nat -> option Q -> Q -> Q). (* [dynamic_learning_rate] *)
(** [_update_effective_learning_rate], lines 173-187 *)
Definition update_effective (u : updater) : updater :=
  let e := match f with None => u_lr u | Some f => f (u_step u) (u_epoch u) (u_continuous u) (u_lr u) end in
  mk_updater (u_lr u) e (u_step u) (u_epoch u) (u_continuous u) (option_map (map (fun g => (fst g, e))) (u_groups u)).
(** [__init__] *)
Definition new_updater (lr : Q) : updater := update_effective (mk_updater lr lr 0 1 (Some 0%Q) None).
(** [set_learning_rate], lines 155-163 *)
Definition set_learning_rate (v : Q) (u : updater) : updater :=
  update_effective (mk_updater v (u_effective u) (u_step u) (u_epoch u) (u_continuous u) (u_groups u)).
(** [set_current_train_step], lines 189-214 *)
Definition set_current_train_step (step epoch : nat) (c : option Q) (u : updater) : updater :=
  update_effective (mk_updater (u_lr u) (u_effective u) step epoch c (u_groups u)).
(** [create_optimizer], lines 237-244 and 391-436: unknown keyword arguments are refused by the class (TypeError). ["epsilon"] is renamed to ["eps"] if the class has that; the check for a learning rate in the options comes first. *)
Definition rename_eps (kwargs keys : list string) : list string :=
  if existsb (String.eqb "eps") kwargs && existsb (String.eqb "epsilon") keys then filter (fun k => negb (String.eqb k "epsilon" || String.eqb k "eps")) keys ++ ["eps"] else keys.
Definition create_optimizer (net : network) (kwargs : list string) (o : opts) (u : updater) : res updater :=
  if existsb (fun k => String.eqb k "learning_rate" || String.eqb k "lr") (o_other o) then Err ValueError
  else
    let lr := (u_lr u * match o_lr_multiplier o with Some m => m | None => 1%Q end)%Q in
    let* gk := get_param_groups net kwargs o in
    if forallb (fun k => existsb (String.eqb k) kwargs) (rename_eps kwargs (snd gk)) then
      Ok (mk_updater (u_lr u) (u_effective u) (u_step u) (u_epoch u) (u_continuous u) (Some (map (fun g => (g, lr)) (fst gk))))
    else Err TypeError.
End Lr.

(** ** Saving and loading the state of the optimizer, updater.py:246-378 *)
Section Load.
Context {St H : Type}. (* the state of one parameter, the settings of one group *)
(** An optimizer of torch: its groups (settings and parameters), and the state of the parameters that have one. *)
Record optimizer := mk_optimizer { p_groups : list (H * list nat); p_state : list (nat * St) }.
(** Its [state_dict()]: the parameters are numbered in the order of the groups. *)
Record ckpt := mk_ckpt { k_groups : list (H * list nat); k_state : list (nat * St); k_names : option (list string) }.
Fixpoint index_of (x : nat) (l : list nat) (i : nat) : option nat :=
  match l with [] => None | y :: l' => if y =? x then Some i else index_of x l' (S i) end.
Definition number (ps : list nat) (p : nat) : res nat := match index_of p ps 0 with Some i => Ok i | None => Err KeyError end.
Definition all_params (gs : list (H * list nat)) : list nat := flat_map snd gs.
(** torch: [Optimizer.state_dict] *)
Definition state_dict (o : optimizer) : res ckpt :=
  let ps := all_params (p_groups o) in
  let* gs := mapM (fun g => let* is := mapM (number ps) (snd g) in Ok (fst g, is)) (p_groups o) in
  let* st := mapM (fun e => let* i := number ps (fst e) in Ok (i, snd e)) (p_state o) in
  Ok (mk_ckpt gs st None).
(** torch: [Optimizer.load_state_dict]: the groups must have the same sizes; the numbers of the file are taken for the parameters at the same place; the settings of the groups come from the file. An entry of the state for no parameter is kept under its number, which nobody uses: we leave it out. *)
Definition load_state_dict (o : optimizer) (k : ckpt) : res optimizer :=
  if negb (length (p_groups o) =? length (k_groups k)) then Err ValueError
  else if negb (forallb (fun ab => length (snd (fst ab)) =? length (snd (snd ab))) (combine (p_groups o) (k_groups k))) then Err ValueError
  else
    let id_map := combine (all_params (k_groups k)) (all_params (p_groups o)) in
    Ok (mk_optimizer (map (fun ab => (fst (snd ab), snd (fst ab))) (combine (p_groups o) (k_groups k)))
                     (flat_map (fun e => match dget id_map (fst e) with Some p => [(p, snd e)] | None => [] end) (k_state k))).
(** [_get_opt_param_names], lines 336-345; [names] is [self.network.named_parameters()] *)
Definition name_of (names : list (string * nat)) (p : nat) : res string :=
  match dget (map (fun np => (snd np, fst np)) names) p with Some n => Ok n | None => Err KeyError end.
Definition opt_param_names (names : list (string * nat)) (o : optimizer) : res (list string) := mapM (name_of names) (all_params (p_groups o)).
(** [save_optimizer], lines 347-378: what is written *)
Definition save_optimizer (names : list (string * nat)) (o : optimizer) : res ckpt :=
  let* ns := opt_param_names names o in
  let* k := state_dict o in
  Ok (mk_ckpt (k_groups k) (k_state k) (Some ns)).
(** [{name: i for i, name in enumerate(l)}] *)
Definition positions (l : list string) : list (string * nat) := to_dict (combine l (seq 0 (length l))).
Definition mems (x : string) (l : list string) : bool := existsb (String.eqb x) l.
Definition same_set (a b : list string) : bool := forallb (fun x => mems x b) a && forallb (fun x => mems x a) b.
Definition names_eqb (a b : list string) : bool := if list_eq_dec string_dec a b then true else false.
Definition nth_name (l : list string) (i : nat) : res string := match nth_error l i with Some n => Ok n | None => Err IndexError end.
(** lines 307-326: the groups of the file with the numbers of the own parameters *)
Definition remap_group (names : list (string * nat)) (self_pos : list (string * nat)) (ckpt_names critical : list string) (kg sg : H * list nat) : res (H * list nat) :=
  let* self_group := mapM (name_of names) (snd sg) in
  let* ckpt_group := mapM (nth_name ckpt_names) (snd kg) in
  let keep := filter (fun n => mems n critical) in
  if negb (same_set (keep ckpt_group) (keep self_group)) then Err ValueError
  else let* is := mapM (fun n => lookup self_pos n) self_group in Ok (fst kg, is).
(** [zip(...)] of the groups; the rest of the longer list stays as it is, but they have the same length *)
Fixpoint remap_groups (names : list (string * nat)) (self_pos : list (string * nat)) (ckpt_names critical : list string) (kgs sgs : list (H * list nat)) : res (list (H * list nat)) :=
  match kgs, sgs with
  | kg :: kgs', sg :: sgs' => let* g := remap_group names self_pos ckpt_names critical kg sg in let* r := remap_groups names self_pos ckpt_names critical kgs' sgs' in Ok (g :: r)
  | _, _ => Ok kgs
  end.
(** [load_optimizer], lines 246-334; [grad] is [requires_grad] of a parameter. *)
Definition load_optimizer (names : list (string * nat)) (grad : nat -> bool) (o : optimizer) (k : ckpt) : res optimizer :=
  match k_names k with
  | None => load_state_dict o k
  | Some ckpt_names =>
      if negb (length (p_groups o) =? length (k_groups k)) then Err ValueError
      else
        let* self_names := opt_param_names names o in
        if names_eqb self_names ckpt_names then load_state_dict o k
        else
          let self_pos := positions self_names in
          let ckpt_pos := positions ckpt_names in
          let* critical := mapM (fun n => let* p := lookup names n in Ok (if grad p then [n] else [])) self_names in
          let critical := concat critical in
          if existsb (fun n => negb (dhas ckpt_pos n)) critical then Err ValueError
          else
            let* gs := remap_groups names self_pos ckpt_names critical (k_groups k) (p_groups o) in
            (* map_ckpt_param_idx_to_self_param_idx *)
            let idx_map := flat_map (fun ni => match dget self_pos (fst ni) with Some j => [(snd ni, j)] | None => [] end) (combine ckpt_names (seq 0 (length ckpt_names))) in
            load_state_dict o (mk_ckpt gs (flat_map (fun e => match dget idx_map (fst e) with Some j => [(j, snd e)] | None => [] end) (k_state k)) (k_names k))
  end.
End Load.
Arguments optimizer : clear implicits.
Arguments ckpt : clear implicits.
