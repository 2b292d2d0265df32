(** What it means that used files are kept alive. *)
From Coq Require Import String.
From Verif Require Import Base PyDict TouchModel.
Local Open Scope list_scope.

Definition occurrences (f : path) (fs : list path) : Z := Z.of_nat (length (filter (path_eqb f) fs)).
(** How often the file was acquired and released in a history. *)
Fixpoint acquired (f : path) (es : list event) : Z :=
  match es with [] => 0 | Acquire fs :: es' => occurrences f fs + acquired f es' | _ :: es' => acquired f es' end.
Fixpoint released (f : path) (es : list event) : Z :=
  match es with [] => 0 | Release fs :: es' => occurrences f fs + released f es' | _ :: es' => released f es' end.
(** Nobody releases a file that is not acquired. *)
Definition balanced (f : path) (es : list event) : Prop := forall pre post, es = pre ++ post -> (released f pre <= acquired f pre)%Z.

(** The directory [d] is a proper ancestor of the file [f], below the cache directory. *)
Definition ancestor (d f : path) : Prop := d <> [] /\ exists rest, rest <> [] /\ f = d ++ rest.
(** The number of steps of the thread in a history. *)
Definition steps (es : list event) : nat := length (filter (fun e => match e with Step => true | _ => false end) es).

(** A well-behaved program: it acquires only existing files (below the cache directory, in existing directories), and nobody removes a file. *)
Definition well_behaved (ex : path -> bool) (es : list event) : Prop :=
  (forall f, ~ In (Unlink f) es) /\
  forall pre fs post f g, es = pre ++ Acquire fs :: post -> In f fs -> f <> [] /\ (g = f \/ ancestor g f -> t_exists (run pre (start ex)) g = true).
(** The less strict version: files in use are not removed. *)
Definition used_files_stay (ex : path -> bool) (es : list event) : Prop :=
  (forall pre f post g, es = pre ++ Unlink f :: post -> In g (dkeys (t_files (run pre (start ex)))) -> ~ (f = g \/ ancestor f g)) /\
  forall pre fs post f g, es = pre ++ Acquire fs :: post -> In f fs -> f <> [] /\ (g = f \/ ancestor g f -> t_exists (run pre (start ex)) g = true).
