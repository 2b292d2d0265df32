(** What the assignment to a part of a parameter should do: exactly the entries at the keys change. *)
From Verif Require Import Base TensorModel TensorSpec AssignModel.
Local Open Scope nat_scope.

(** A negative index counts from the end. *)
Definition from_end (n : nat) (i : Z) : Z := if (i <? 0)%Z then (i + Z.of_nat n)%Z else i.
(** The indices of an axis of size [n] which a key selects, in order. *)
Definition chosen (n : nat) (k : key) : list nat :=
  match k with
  | KInt i => [Z.to_nat (from_end n i)]
  | KSlice start stop step =>
      let lo := match start with Some i => Z.max 0 (from_end n i) | None => 0%Z end in
      let hi := match stop with Some i => from_end n i | None => Z.of_nat n end in
      let step := match step with Some s => s | None => 1%Z end in
      filter (fun i => (lo <=? Z.of_nat i)%Z && (Z.of_nat i <? hi)%Z && ((Z.of_nat i - lo) mod step =? 0)%Z) (seq 0 n)
  | KIndices l => map (fun i => Z.to_nat (from_end n i)) l
  end.
(** A key which is inside of an axis of size [n]. *)
Definition key_ok (n : nat) (k : key) : Prop :=
  match k with
  | KInt i => (- Z.of_nat n <= i < Z.of_nat n)%Z
  | KSlice _ _ step => match step with Some s => (0 < s)%Z | None => True end
  | KIndices l => Forall (fun i => - Z.of_nat n <= i < Z.of_nat n)%Z l /\ NoDup (chosen n k)
  end.

(** What is to be assigned: axis, key and, unless the key is a number, the dim of the entries of the key. *)
Definition part := (nat * key * option nat)%type.
(** The dims of the value: each axis with a number as key is left out, and the others with a key are replaced. *)
Definition value_dims (parts : list part) (names : list nat) : list nat :=
  flat_map (fun c => match find (fun p => fst (fst p) =? c) parts with
                     | None => [c]
                     | Some (_, KInt _, _) => []
                     | Some (_, _, Some d) => [d]
                     | Some (_, _, None) => []
                     end) names.
(** The entry [env] of the parameter is the one for the entry [env'] of the value. *)
Definition selects (size : nat -> nat) (parts : list part) (env env' : nat -> nat) : Prop :=
  (forall a k kd, In (a, k, kd) parts ->
     match k, kd with
     | KInt i, _ => chosen (size a) k = [env a]
     | _, Some d => nth_error (chosen (size a) k) (env' d) = Some (env a)
     | _, None => False
     end) /\
  forall c, (forall a k d, In (a, k, Some d) parts -> is_reduce k = false -> d <> c) -> env' c = env c.
(** A well-formed assignment: each part has its own axis, keys are inside, and the dims of the values are different ones. *)
Definition parts_ok (size : nat -> nat) (parts : list part) (param value : tensor) : Prop :=
  NoDup (map (fun p => fst (fst p)) parts) /\
  (forall a k kd, In (a, k, kd) parts -> In a (bases (dims param)) /\ key_ok (size a) k /\
     (is_reduce k = false -> exists d, kd = Some d /\ size d = length (chosen (size a) k))) /\
  NoDup (value_dims parts (bases (dims param))) /\ incl (bases (dims value)) (value_dims parts (bases (dims param))).
Definition assigned (size : nat -> nat) (op : Z -> Z -> Z) (parts : list part) (param val result : tensor) : Prop :=
  well size result /\ dims result = dims param /\
  forall env, inside size env (dims param) ->
    (forall env', selects size parts env env' -> value result env = op (value param env) (value val env')) /\
    ((forall env', ~ selects size parts env env') -> value result env = value param env).
(** The axes with a key are the first ones of the parameter, in any order. *)
Definition first_axes (parts : list part) (param : tensor) : Prop :=
  Permutation (map (fun p => fst (fst p)) parts) (firstn (length parts) (bases (dims param))).
Definition names_of (axes : list dim) (keys : list key) (kds : list (option dim)) : list part :=
  map (fun '(a, k, kd) => (d_base a, k, option_map d_base kd)) (combine (combine axes keys) kds).
