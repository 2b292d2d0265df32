(** Vocabulary for C141. *)
From Coq Require Import String Ascii.
From Verif Require Import Base PyDict BuildModel.
Local Open Scope list_scope.

(** A name without dots, as of any class or function *)
Fixpoint no_dot (s : string) : Prop := match s with EmptyString => True | String c s => c <> "."%char /\ no_dot s end.
(** The object is found by its name, in the frontend or in its module (which is not called rf). *)
Definition accessible (w : world) (o : nat) : Prop :=
  no_dot (o_name (w_obj w o)) /\
  (dget (w_rf w) (o_name (w_obj w o)) = Some o \/
   (o_module (w_obj w o) <> "rf"%string /\ exists attrs, dget (w_modules w) (o_module (w_obj w o)) = Some attrs /\ dget attrs (o_name (w_obj w o)) = Some o)).
(** A class or a function *)
Definition buildable (w : world) (o : nat) : Prop := o_kind (w_obj w o) <> KOther.
(** What a direct use of the object with these arguments gives *)
Definition used {V} (w : world) (o : nat) (args : list (@arg V)) (kwargs : @dict string (@arg V)) : made :=
  match o_kind (w_obj w o), args, kwargs with
  | KClass, _, _ => New o args kwargs
  | _, [], [] => Function o
  | _, _, _ => Partial o args kwargs
  end.
(** Arguments by name: no name twice, and none is called class. *)
Definition named_args {V} (kwargs : @dict string (@arg V)) : Prop := NoDup (dkeys kwargs) /\ ~ In "class"%string (dkeys kwargs).
