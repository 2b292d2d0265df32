(* Loading a model: /repo/returnn/torch/engine.py Engine._load_model with preload_from_files, and
   Engine._save_model; /repo/returnn/torch/util/module.py convert_parameters_to_buffers.

   Values [V] of parameters are kept abstract; their shapes and dtypes are not modelled (a mismatch is a RuntimeError
   of torch), nor are parameters with two names. Files which cannot be read, post hooks and log output are left out,
   except for the unexpected keys, which are part of the result. *)
From Coq Require Import List ZArith String Bool.
From Verif Require Import Base PyDict.
Import ListNotations.
Local Open Scope Z_scope.

(* torch: nn.Parameter, a persistent buffer, or a buffer registered with persistent=False *)
Inductive kind := KParam | KBuffer | KNonPersistent.

Section Load.
Context {V : Type}.

(* A torch.nn.Module: full names, in the order of named_parameters/named_buffers. *)
Definition module := list (string * (kind * V)).

Definition persistent (k : kind) : bool := match k with KNonPersistent => false | _ => true end.

(* torch: Module.state_dict *)
Definition state_dict (m : module) : list (string * V) :=
  flat_map (fun p => if persistent (fst (snd p)) then [(fst p, snd (snd p))] else []) m.

Definition state_keys (m : module) : list string := map fst (state_dict m).

Definition mem (k : string) (l : list string) : bool := existsb (String.eqb k) l.

Definition diff (a b : list string) : list string := filter (fun k => negb (mem k b)) a.
Definition inter (a b : list string) : list string := filter (fun k => mem k b) a.

(* torch: Module.load_state_dict(sd, strict=False): the new module, missing_keys, unexpected_keys *)
Definition load_state_dict (m : module) (sd : list (string * V)) : module * list string * list string :=
  (map (fun p => (fst p, (fst (snd p),
         if persistent (fst (snd p)) then match dget sd (fst p) with Some v => v | None => snd (snd p) end
         else snd (snd p)))) m,
   diff (state_keys m) (map fst sd),
   diff (map fst sd) (state_keys m)).

(* A checkpoint as given by torch.load: a dict; its entries which are themselves dicts of parameters are in [f_sub],
   those which are parameters in [f_flat]. *)
Record file := { f_sub : list (string * list (string * V)); f_flat : list (string * V);
                 f_epoch : option Z; f_step : option Z }.

(* the value of init_for_train: falsy, True, "always", anything else *)
Inductive init_opt := InitRecog | InitTrue | InitAlways | InitOther.

(* filename None with a pattern (fnmatch gives which names match), or a file *)
Inductive source := SPattern (matches : string -> bool) | SFile (f : file).

(* One entry of preload_from_files; the defaults of the options are Some "model", "", [], [], {}, False. *)
Record preload := {
  p_init : init_opt;
  p_source : source;
  p_ckpt_key : option string;
  p_prefix : string;
  p_ignore : list string;
  p_ignore_prefixes : list string;
  p_mapping : list (string * string);    (* new name, name in the checkpoint *)
  p_ignore_missing : bool }.

(* engine.py 959-965: checkpoint_key *)
Definition select (p : preload) (f : file) : res (list (string * V)) :=
  match p_ckpt_key p with
  | Some k => match dget (f_sub f) k with Some d => Ok d | None => Err KeyError end
  | None => Ok (f_flat f)
  end.

(* engine.py 966-972 *)
Definition add_prefix (p : preload) (d : list (string * V)) : list (string * V) :=
  if String.eqb (p_prefix p) "" then d else map (fun e => ((p_prefix p ++ fst e)%string, snd e)) d.

(* engine.py 973-980: popping while iterating over a copy of the keys is a filter *)
Definition drop_ignored (p : preload) (d : list (string * V)) : list (string * V) :=
  filter (fun e => negb (mem (fst e) (p_ignore p) ||
                         existsb (fun q => String.prefix q (fst e)) (p_ignore_prefixes p))) d.

(* engine.py 981-982: d[new_name] = d.pop(name_in_checkpoint) *)
Fixpoint map_names (l : list (string * string)) (d : list (string * V)) : res (list (string * V)) :=
  match l with
  | [] => Ok d
  | (new, old) :: l =>
      match dget d old with
      | Some v => map_names l (dset (ddel d old) new v)
      | None => Err KeyError
      end
  end.

(* engine.py 958-982 *)
Definition preload_state (p : preload) (f : file) : res (list (string * V)) :=
  let* d := select p f in map_names (p_mapping p) (drop_ignored p (add_prefix p d)).

(* the local variables of _load_model *)
Record lstate := { l_model : module; l_loaded : list string; l_missing : list string; l_unexpected : list string;
                   l_ignore : list string }.

(* engine.py 924-942: false means continue *)
Definition wanted (is_training is_first : bool) (p : preload) : res bool :=
  match p_init p with
  | InitAlways => Ok true
  | InitTrue => Ok is_first
  | InitOther => Err ValueError
  | InitRecog => Ok (negb is_training)
  end.

(* engine.py 922-1025: the body of the loop over preload_from_files *)
Definition preload_step (is_training is_first : bool) (st : lstate) (p : preload) : res lstate :=
  let* w := wanted is_training is_first p in
  if negb w then Ok st else
  match p_source p with
  | SPattern matches =>
      let remove := filter (fun n => matches n && mem n (l_missing st)) (state_keys (l_model st)) in
      Ok {| l_model := l_model st; l_loaded := l_loaded st; l_missing := diff (l_missing st) remove;
            l_unexpected := l_unexpected st; l_ignore := l_ignore st |}
  | SFile f =>
      let* sd := preload_state p f in
      let keys := map fst sd in
      let model_keys := state_keys (l_model st) in
      let ignore := match p_init p with InitAlways => l_ignore st ++ inter keys model_keys | _ => l_ignore st end in
      let '(model, missing_preload, unexpected_preload) := load_state_dict (l_model st) sd in
      let loaded := l_loaded st ++ keys in
      let missing := diff (l_missing st) keys in
      let* prefix_keys :=
        if String.eqb (p_prefix p) "" then Ok model_keys else
        let ks := filter (String.prefix (p_prefix p)) (state_keys model) in
        match ks with [] => Err OtherException | _ => Ok ks end in
      let missing_preload := diff (inter prefix_keys missing_preload) loaded in
      let unexpected_preload := diff (inter prefix_keys unexpected_preload) loaded in
      match inter keys prefix_keys with
      | [] => Err OtherException
      | _ =>
          Ok {| l_model := model; l_loaded := loaded;
                l_missing := if p_ignore_missing p then missing else missing ++ missing_preload;
                l_unexpected := l_unexpected st ++ unexpected_preload; l_ignore := ignore |}
      end
  end.

Fixpoint preload_loop (is_training is_first : bool) (st : lstate) (l : list preload) : res lstate :=
  match l with
  | [] => Ok st
  | p :: l => let* st := preload_step is_training is_first st p in preload_loop is_training is_first st l
  end.

(* sorted(preload_from_files.items()): the keys of a dict are all different, so that the values are not compared *)
Fixpoint insert_entry (x : string * preload) (l : list (string * preload)) : list (string * preload) :=
  match l with
  | [] => [x]
  | y :: r => if String.leb (fst x) (fst y) then x :: l else y :: insert_entry x r
  end.
Fixpoint sort_entries (l : list (string * preload)) : list (string * preload) :=
  match l with [] => [] | x :: r => insert_entry x (sort_entries r) end.

(* module.py 10-43: convert_parameters_to_buffers(…, persistent=False) *)
Definition convert (m : module) (names : list string) : res module :=
  if forallb (fun n => match dget m n with Some (KParam, _) => true | _ => false end) names then
    Ok (map (fun p => if mem (fst p) names then (fst p, (KNonPersistent, snd (snd p))) else p) m)
  else Err ValueError.

(* the config option task *)
Inductive task := TTrain | TInitializeModel | TOther.

Record loaded := { r_model : module; r_epoch : Z; r_step : Z; r_ignore : list string; r_unexpected : list string }.

(* engine.py 889-909: loading the main checkpoint *)
Definition load_main (m : module) (main : option file) : lstate :=
  match main with
  | None => {| l_model := m; l_loaded := []; l_missing := []; l_unexpected := []; l_ignore := [] |}
  | Some f =>
      let sd := match dget (f_sub f) "model"%string with Some d => d | None => f_flat f end in
      let '(m', missing, unexpected) := load_state_dict m sd in
      {| l_model := m'; l_loaded := map fst sd; l_missing := missing; l_unexpected := unexpected; l_ignore := [] |}
  end.

Definition zero_epoch (e : option Z) : bool := match e with None | Some 0 => true | _ => false end.
Definition or_one (e : option Z) : Z := match e with None | Some 0 => 1 | Some e => e end.

(* engine.py 847-1061. [epoch] and [main] are what get_epoch_model gives (with the file read); [create] is
   _create_model; [noncritical] are the names of the parameters with non_critical_for_restore. *)
Definition load_model (t : task) (start_epoch epoch : option Z) (main : option file) (create : Z -> Z -> module)
    (noncritical : list string) (preloads : list (string * preload)) : res loaded :=
  let epoch1 := match main, epoch with
                | Some f, None => Some (match f_epoch f with Some e => e | None => or_one start_epoch end)
                | _, _ => epoch
                end in
  let is_training := match t with TTrain => true | _ => false end in
  let is_first := zero_epoch epoch1 && match t with TOther => false | _ => true end in
  let '(epoch2, step) :=
    match main, epoch1 with
    | Some f, Some e => (e, match f_step f with Some s => s | None => 1 end - 1)
    | _, _ => (or_one start_epoch, 0)
    end in
  let st := load_main (create epoch2 step) main in
  let* st := preload_loop is_training is_first st (map snd (rev (sort_entries preloads))) in
  let* m := convert (l_model st) (l_ignore st) in
  match diff (l_missing st) noncritical with
  | _ :: _ => Err OtherException
  | [] =>
      let trained := match main with Some _ => is_training | None => false end in
      Ok {| r_model := m; r_epoch := if trained then epoch2 + 1 else epoch2;
            r_step := if trained then step + 1 else step; r_ignore := l_ignore st;
            r_unexpected := l_unexpected st |}
  end.

(* engine.py 1116-1152: _save_model *)
Definition save_model (m : module) (ignore : list string) (epoch step : Z) : res file :=
  match inter (state_keys m) ignore with
  | _ :: _ => Err AssertionError
  | [] => Ok {| f_sub := [("model"%string, state_dict m)]; f_flat := []; f_epoch := Some epoch; f_step := Some step |}
  end.

End Load.
Arguments module : clear implicits.
Arguments file : clear implicits.
Arguments preload : clear implicits.
Arguments source : clear implicits.
Arguments loaded : clear implicits.
Arguments lstate : clear implicits.
