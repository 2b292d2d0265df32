(** Model of dicts for the construction of modules: /repo/returnn/frontend/build_from_dict.py. Objects are numbers; [V] are the values of
    arguments other than texts. *)
From Coq Require Import String Ascii.
From Verif Require Import Base PyDict.
Local Open Scope nat_scope. Local Open Scope list_scope.

(** A class, a function, or any other object, lines 32, 36, 58; with [__module__] and [__name__] *)
Inductive kind := KClass | KFunction | KOther.
Record object := { o_kind : kind; o_module : string; o_name : string }.
(** All objects, the attributes of [returnn.frontend], and the modules that can be imported with their attributes. Simplified: importing
    has no other effect. *)
Record world := { w_obj : nat -> object; w_rf : @dict string nat; w_modules : @dict string (@dict string nat) }.

(** [str.rsplit(".", 1)], nothing if there is no dot: lines 64-66 *)
Fixpoint rsplit1 (s : string) : option (string * string) :=
  match s with
  | EmptyString => None
  | String c s =>
      match rsplit1 s with
      | Some (a, b) => Some (String c a, b)
      | None => if Ascii.eqb c "." then Some (EmptyString, s) else None
      end
  end.
(** [getattr]: AttributeError if it is missing *)
Definition getattr (attrs : @dict string nat) (name : string) : res nat :=
  match dget attrs name with Some o => Ok o | None => Err OtherException end.
(** [_get_cls], lines 63-70; ModuleNotFoundError is an other exception as well *)
Definition get_cls (w : world) (cls_name : string) : res nat :=
  match rsplit1 cls_name with
  | None => Err ValueError
  | Some (mod_name, name) =>
      if String.eqb mod_name "rf" then getattr (w_rf w) name
      else match dget (w_modules w) mod_name with Some attrs => getattr attrs name | None => Err OtherException end
  end.
(** [_get_cls_name], lines 73-76 *)
Definition get_cls_name (w : world) (o : nat) : string :=
  let i := w_obj w o in
  match dget (w_rf w) (o_name i) with
  | Some o' => if o' =? o then ("rf." ++ o_name i)%string else (o_module i ++ "." ++ o_name i)%string
  | None => (o_module i ++ "." ++ o_name i)%string
  end.

Section Build.
  Context {V : Type}.
  Inductive arg := Str (s : string) | Val (v : V).
  (** [build_dict], lines 41-60 *)
  Definition build_dict (w : world) (o : nat) (kwargs : @dict string arg) : res (@dict string arg) :=
    match o_kind (w_obj w o) with
    | KOther => Err TypeError
    | _ => Ok (fold_left (fun d x => dset d (fst x) (snd x)) kwargs [("class"%string, Str (get_cls_name w o))])
    end.
  (** What comes out: the function itself, a partial function, or a new object of the class *)
  Inductive made := Function (o : nat) | Partial (o : nat) (args : list arg) (kwargs : @dict string arg) | New (o : nat) (args : list arg) (kwargs : @dict string arg).
  (** A call with [**d, **kwargs]: TypeError for a name which is in both *)
  Definition merge (d kwargs : @dict string arg) : res (@dict string arg) :=
    if existsb (fun k => dhas d k) (dkeys kwargs) then Err TypeError else Ok (d ++ kwargs).
  (** [build_from_dict], lines 16-38 *)
  Definition build_from_dict (w : world) (d : @dict string arg) (args : list arg) (kwargs : @dict string arg) : res made :=
    match dget d "class"%string with
    | None => Err ValueError
    | Some (Val _) => Err TypeError
    | Some (Str cls_name) =>
        let d := ddel d "class"%string in
        let* cls := get_cls w cls_name in
        match o_kind (w_obj w cls) with
        | KFunction =>
            match args, kwargs, d with
            | [], [], [] => Ok (Function cls)
            | _, _, _ => let* kw := merge d kwargs in Ok (Partial cls args kw)
            end
        | KOther => Err ValueError
        | KClass => let* kw := merge d kwargs in Ok (New cls args kw)
        end
    end.
End Build.
