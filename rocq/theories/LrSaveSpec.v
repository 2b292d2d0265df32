(** Vocabulary for C22. *)
From Coq Require Import Ascii String.
From Verif Require Import Base PyDict ReprModel ReprSpec LrSaveModel.
Local Open Scope list_scope.

(** The data of the last completed save, or the empty data. *)
Fixpoint last_saved (acc : dict Z epoch) (es : list event) : dict Z epoch :=
  match es with [] => acc | Saved d :: es' => last_saved d es' | Loaded _ :: es' => last_saved acc es' end.
Definition ever_saved (es : list event) : Prop := exists d, In (Saved d) es.

(** Data as the training makes it: distinct keys, float learning rates, values python can print and read, no score named like meta data. *)
Definition good_values (d : dict string pyv) : Prop := dict_ok d /\ forall k v, In (k, v) d -> well_formed v /\ no_singletons v.
Definition good_epoch (e : epoch) : Prop :=
  is_float (e_lr e) = true /\ well_formed (e_lr e) /\ good_values (e_error e) /\ good_values (e_meta e) /\ forall k, In k (dkeys (e_error e)) -> strip meta_prefix k = None.
Definition good_data (d : dict Z epoch) : Prop := dict_ok d /\ forall n e, In (n, e) d -> good_epoch e.

(** The same data; the order in dictionaries does not matter. *)
Definition same_option {A} (R : A -> A -> Prop) (a b : option A) : Prop := match a, b with Some x, Some y => R x y | None, None => True | _, _ => False end.
Definition same_epoch (e e' : epoch) : Prop :=
  e_lr e = e_lr e' /\ (forall k, same_option same (dget (e_error e) k) (dget (e_error e') k)) /\ (forall k, same_option same (dget (e_meta e) k) (dget (e_meta e') k)).
Definition same_data (d d' : dict Z epoch) : Prop := forall n, same_option same_epoch (dget d n) (dget d' n).
