(** Model of the dict of tensors as a dict of raw tensors, and back: /repo/returnn/tensor/tensor_dict.py. Dims are numbers, a store has the
    state of each; [V] are the raw tensors. *)
From Coq Require Import String.
From Verif Require Import Base PyDict.
Local Open Scope nat_scope. Local Open Scope list_scope.

(** The names in the dict, tensor_dict.py 97 and 101: the one of a tensor, or of the size of its [i]-th dim. Simplified: these are always
    different (no tensor has a name which ends as [:size0]). *)
Inductive rkey := KData (name : string) | KSize (name : string) (i : nat).
Definition rkey_eqb (a b : rkey) : bool :=
  match a, b with
  | KData a, KData b => (a =? b)%string
  | KSize a i, KSize b j => (a =? b)%string && (i =? j)
  | _, _ => false
  end.
Lemma rkey_eqb_eq a b : rkey_eqb a b = true <-> a = b.
Proof.
  destruct a as [a|a i], b as [b|b j]; cbn; rewrite ?andb_true_iff, ?String.eqb_eq, ?Nat.eqb_eq; split; try congruence; [intros [-> ->]; reflexivity|intros H; injection H; auto].
Qed.
#[global] Instance rkey_EqB : EqB rkey := {| keqb := rkey_eqb; keqb_eq := rkey_eqb_eq |}.

Section TensorDict.
  Context {V : Type}.
  (** A raw tensor, a number, or [None] *)
  Inductive raw := RNone | RVal (v : V) | RInt (n : nat).
  (** A dim: whether it is a batch dim, [size], [dyn_size_ext] (whether it has dims, and its raw tensor), and the outcome of [get_dim_value] *)
  Record dim := { d_batch : bool; d_size : option nat; d_ext : option (bool * raw); d_value : res raw }.
  Definition store := nat -> dim.
  Definition upd (s : store) (d : nat) (x : dim) : store := fun d' => if d' =? d then x else s d'.
  (** A tensor: its dims and its raw tensor *)
  Record tensor := { t_dims : list nat; t_raw : raw }.
  Record opts := { o_const : bool; o_scalar : bool; o_exclude : bool }.

  (** The rounds of the loops, tensor_dict.py 92-98 and 141-144: a tensor, and then each of its dims with its number *)
  Inductive round := RTensor (name : string) (t : tensor) | RDim (name : string) (i d : nat).
  Definition rounds_of (x : string * tensor) : list round :=
    RTensor (fst x) (snd x) :: map (fun p => RDim (fst x) (fst p) (snd p)) (combine (seq 0 (List.length (t_dims (snd x)))) (t_dims (snd x))).
  Definition rounds (td : list (string * tensor)) : list round := flat_map rounds_of td.
  Definition is_visited (d : nat) (visited : list nat) : bool := existsb (Nat.eqb d) visited.

  (** tensor_dict.py 103-124: what is stored for a dim, if anything. Without a check of types. *)
  Definition dim_entry (o : opts) (d : dim) : res (option raw) :=
    if d_batch d && match d_ext d with None | Some (_, RNone) => true | _ => false end then
      if o_scalar o then let* v := d_value d in Ok (Some v) else Ok None
    else match d_ext d with
         | Some (has_dims, v) => Ok (if o_scalar o || has_dims then Some v else None)
         | None =>
             match d_size d with
             | Some n => Ok (if o_scalar o && o_const o then Some (RInt n) else None)
             | None => Err OtherException
             end
         end.
  (** [as_raw_tensor_dict], tensor_dict.py 78-126 *)
  Fixpoint write (o : opts) (s : store) (rs : list round) (visited : list nat) (out : @dict rkey raw) : res (@dict rkey raw) :=
    match rs with
    | [] => Ok out
    | RTensor name t :: rs =>
        let* _ := assert_ (negb (dhas out (KData name))) in
        write o s rs visited (out ++ [(KData name, t_raw t)])
    | RDim name i d :: rs =>
        if o_exclude o && is_visited d visited then write o s rs visited out
        else
          let* _ := assert_ (negb (dhas out (KSize name i))) in
          let* e := dim_entry o (s d) in
          write o s rs (d :: visited) (match e with Some v => out ++ [(KSize name i, v)] | None => out end)
    end.
  Definition as_raw_tensor_dict (o : opts) (td : list (string * tensor)) (s : store) : res (@dict rkey raw) :=
    let* _ := assert_ (negb (o_const o && negb (o_scalar o))) in
    write o s (rounds td) [] [].

  (** [reset_raw(only_self=True)], tensor/_dim_extra.py 373-398, and a batch dim without [dyn_size_ext], tensor_dict.py 149-151 *)
  Definition prepare (d : dim) : dim :=
    {| d_batch := d_batch d; d_size := d_size d; d_value := d_value d;
       d_ext := match d_ext d with Some (has_dims, _) => Some (has_dims, RNone) | None => if d_batch d then Some (false, RNone) else None end |}.
  Definition set_raw (d : dim) (has_dims : bool) (v : raw) : dim :=
    {| d_batch := d_batch d; d_size := d_size d; d_ext := Some (has_dims, v); d_value := d_value d |}.
  (** [dim.size == raw], tensor_dict.py 160 *)
  Definition size_is (size : option nat) (v : raw) : bool :=
    match size, v with Some n, RInt m => n =? m | None, RNone => true | _, _ => false end.
  (** tensor_dict.py 149-160: one dim *)
  Definition assign_dim (o : opts) (full : @dict rkey raw) (k : rkey) (d : dim) : res dim :=
    let d := prepare d in
    match d_ext d with
    | Some (has_dims, _) =>
        if negb (o_scalar o) && negb has_dims then Ok d
        else match dget full k with Some v => Ok (set_raw d has_dims v) | None => Err AssertionError end
    | None =>
        match dget full k with
        | Some v => let* _ := assert_ (size_is (d_size d) v) in Ok d
        | None => Ok d
        end
    end.
  (** [assign_from_raw_tensor_dict_], tensor_dict.py 128-161, with the matching options: the raw tensors by name, and the dims *)
  Fixpoint read (o : opts) (full : @dict rkey raw) (rs : list round) (visited : list nat) (s : store) : res (list (string * raw) * store) :=
    match rs with
    | [] => Ok ([], s)
    | RTensor name _ :: rs =>
        match dget full (KData name) with
        | None => Err AssertionError
        | Some v => let* (l, s) := read o full rs visited s in Ok ((name, v) :: l, s)
        end
    | RDim name i d :: rs =>
        if o_exclude o && is_visited d visited then read o full rs visited s
        else
          let* x := assign_dim o full (KSize name i) (s d) in
          read o full rs (d :: visited) (upd s d x)
    end.
  Definition assign_from_raw_tensor_dict (o : opts) (td : list (string * tensor)) (s : store) (full : @dict rkey raw) : res (list (string * raw) * store) :=
    read o full (rounds td) [] s.
End TensorDict.
