(** [Dim.declare_same_as] and what it uses, returnn/tensor/_dim_extra.py.

    Simplifications: no batch information ([self.batch] is [None], as in the eager mode of the RF), thus
    [_maybe_update] and [_validate_in_current_graph] do nothing, [same_for_batch_ctx] is empty and
    [get_dyn_size_ext_for_batch_ctx] gives [dyn_size_ext]; no [src_data], no [copy_same_as]; [_dyn_size_max_value] and the caches
    of masks are left out; the equality is the one of behavior version 16 and later; names, vocabularies, keys of the cache
    and raw tensors are numbers.  Objects are numbers: a heap gives the contents. *)
From Verif Require Import Base.

Inductive kind := Unspecified | Batch | Spatial | Feature.
Definition kind_eqb (a b : kind) : bool :=
  match a, b with Unspecified, Unspecified | Batch, Batch | Spatial, Spatial | Feature, Feature => true | _, _ => false end.

(** [_DimExtra], lines 39-122: [e_op] are the inputs of [derived_from_op], [e_cache] is [cache_dim_math] *)
Record extra := Extra {
  e_kind : kind; e_vocab : option nat; e_same : option nat; e_tag : option nat; e_op : option (list nat);
  e_undefined : bool; e_special : bool; e_auto : bool; e_cache : list (nat * nat) }.
Definition extra0 : extra := Extra Unspecified None None None None false false false [].
(** [Dim], returnn/tensor/dim.py 38-93: [d_dyn] is the tensor object [dyn_size_ext] *)
Record dim := Dim { d_name : nat; d_capacity : option nat; d_size : option nat; d_dyn : option nat; d_extra : option extra }.
(** [h_n] dims and [h_nt] tensor objects; a tensor object has a raw tensor or none. *)
Record heap := Heap { h_n : nat; h_dim : nat -> dim; h_nt : nat; h_raw : nat -> option nat }.

Inductive derr := EAssert | ERecursion | EAttribute | ELoop | EFuel.
Inductive dres (A : Type) := DOk (a : A) | DErr (e : derr).
Arguments DOk {A} a.
Arguments DErr {A} e.
Definition dbind {A B} (x : dres A) (f : A -> dres B) : dres B := match x with DOk v => f v | DErr e => DErr e end.
Notation "'let!' x := e 'in' f" := (dbind e (fun x => f)) (at level 200, x name, e at level 100, f at level 200).
Definition dassert (c : bool) : dres unit := if c then DOk tt else DErr EAssert.

Definition set_dim (h : heap) (i : nat) (f : dim -> dim) : heap :=
  Heap (h_n h) (fun j => if j =? i then f (h_dim h j) else h_dim h j) (h_nt h) (h_raw h).
Definition get_extra (d : dim) : extra := match d_extra d with Some e => e | None => extra0 end.
(** [_make_extra], lines 2035-2038, with an update of the fields *)
Definition with_extra (f : extra -> extra) (d : dim) : dim := Dim (d_name d) (d_capacity d) (d_size d) (d_dyn d) (Some (f (get_extra d))).
(** An update only if [_extra] is there *)
Definition if_extra (f : extra -> extra) (d : dim) : dim := match d_extra d with Some e => Dim (d_name d) (d_capacity d) (d_size d) (d_dyn d) (Some (f e)) | None => d end.
Definition with_dyn (t : option nat) (d : dim) : dim := Dim (d_name d) (d_capacity d) (d_size d) t (d_extra d).
Definition with_size (c s : option nat) (d : dim) : dim := Dim (d_name d) c s (d_dyn d) (d_extra d).

(** The properties, lines 160-277: the default if there is no [_extra] *)
Definition same_as (h : heap) (i : nat) : option nat := e_same (get_extra (h_dim h i)).
Definition tag_of (h : heap) (i : nat) : option nat := e_tag (get_extra (h_dim h i)).
Definition op_of (h : heap) (i : nat) : option (list nat) := e_op (get_extra (h_dim h i)).
Definition has {A} (x : option A) : bool := match x with Some _ => true | None => false end.
Definition special (h : heap) (i : nat) : bool := e_special (get_extra (h_dim h i)).
Definition auto (h : heap) (i : nat) : bool := e_auto (get_extra (h_dim h i)).
Definition undef (h : heap) (i : nat) : bool := e_undefined (get_extra (h_dim h i)).
Definition kind_of (h : heap) (i : nat) : kind := e_kind (get_extra (h_dim h i)).
Definition size_of (h : heap) (i : nat) : option nat := d_size (h_dim h i).
Definition dyn_of (h : heap) (i : nat) : option nat := d_dyn (h_dim h i).
(** [dyn_size], lines 752-761 *)
Definition raw_of (h : heap) (i : nat) : option nat := match dyn_of h i with Some t => h_raw h t | None => None end.

(** [get_same_base], lines 1523-1532: [None] if the loop does not end *)
Fixpoint base_ (fuel : nat) (h : heap) (i : nat) : option nat :=
  match same_as h i with
  | None => Some i
  | Some j => match fuel with O => None | S f => base_ f h j end
  end.
Definition get_same_base (h : heap) (i : nat) : dres nat := match base_ (h_n h) h i with Some b => DOk b | None => DErr ELoop end.

(** [get_same_derived_base()], lines 1534-1555 *)
Fixpoint derived_base_ (fuel : nat) (h : heap) (visited : list nat) (i : nat) : dres nat :=
  match same_as h i, tag_of h i with
  | None, None => DOk i
  | s, t =>
      if existsb (Nat.eqb i) visited then DErr EAssert else
      match fuel with
      | O => DErr ELoop
      | S f => match s, t with Some j, _ => derived_base_ f h (i :: visited) j | None, Some j => derived_base_ f h (i :: visited) j | None, None => DOk i end
      end
  end.
Definition get_same_derived_base (h : heap) (i : nat) : dres nat := derived_base_ (h_n h) h [] i.

(** [undefined], lines 1578-1597 *)
Fixpoint undefined_ (fuel : nat) (h : heap) (visited : list nat) (i : nat) : dres bool :=
  match same_as h i, tag_of h i with
  | None, None => DOk (undef h i)
  | s, t =>
      if existsb (Nat.eqb i) visited then DErr EAssert else
      if undef h i then DOk true else
      match fuel with
      | O => DErr ELoop
      | S f => match s, t with Some j, _ => undefined_ f h (i :: visited) j | None, Some j => undefined_ f h (i :: visited) j | None, None => DOk false end
      end
  end.
Definition undefined (h : heap) (i : nat) : dres bool := undefined_ (h_n h) h [] i.

(** [_eq_simple], lines 1420-1448 *)
Definition dim_eq (h : heap) (i j : nat) : bool :=
  if i =? j then true else
  match base_ (h_n h) h i, base_ (h_n h) h j with
  | Some a, Some b =>
      if a =? b then true
      else if has (d_extra (h_dim h a)) && has (d_extra (h_dim h b)) then
        if kind_eqb (kind_of h a) Batch && kind_eqb (kind_of h b) Batch then true
        else auto h a && auto h b && (d_name (h_dim h a) =? d_name (h_dim h b))
      else false
  | _, _ => false
  end.
(** [__hash__], lines 1468-1489; different kinds of keys are assumed to have different hashes *)
Inductive hkey := HId (i : nat) | HBatch | HAuto (k : kind) (s : option nat) (n : nat).
Definition opt_eqb (a b : option nat) : bool := match a, b with Some x, Some y => x =? y | None, None => true | _, _ => false end.
Definition hkey_eqb (a b : hkey) : bool :=
  match a, b with
  | HId i, HId j => i =? j
  | HBatch, HBatch => true
  | HAuto k s n, HAuto k' s' n' => kind_eqb k k' && opt_eqb s s' && (n =? n')
  | _, _ => false
  end.
Definition dim_hash (h : heap) (i : nat) : hkey :=
  match base_ (h_n h) h i with
  | None => HId i
  | Some b =>
      if special h b then HId b
      else if kind_eqb (kind_of h b) Batch then HBatch
      else if auto h b then HAuto (kind_of h b) (size_of h b) (d_name (h_dim h b))
      else HId b
  end.
(** A python set of dims: the entries with the hash at the time of the insertion.  Membership: same hash, and same object or equal now *)
Definition dset := list (hkey * nat).
Definition set_in (h : heap) (e : hkey * nat) (s : dset) : bool := existsb (fun x => hkey_eqb (fst x) (fst e) && ((snd x =? snd e) || dim_eq h (snd x) (snd e))) s.
Definition set_add (h : heap) (i : nat) (s : dset) : dset := let e := (dim_hash h i, i) in if set_in h e s then s else e :: s.
Definition subset (h : heap) (a b : dset) : bool := (length a <=? length b) && forallb (fun e => set_in h e b) a.

(** [get_derived_bases_set], lines 1557-1576: one step of [same_as] only; the queue is a stack with its top first here.  Every
    dim pushes its inputs once, so that [fuel] is enough when it exceeds the number of all inputs by the number of dims *)
Fixpoint derived_bases_ (fuel : nat) (h : heap) (queue visited : list nat) (res : dset) : dres dset :=
  match queue with
  | [] => DOk res
  | i :: q =>
      match fuel with
      | O => DErr ELoop
      | S f =>
          let base := match same_as h i with Some j => j | None => i end in
          if existsb (Nat.eqb base) visited then derived_bases_ f h q visited res
          else
            let more := match op_of h base with Some inputs => rev inputs | None => match tag_of h base with Some j => [j] | None => [] end end in
            derived_bases_ f h (more ++ q) (base :: visited) (set_add h base res)
      end
  end.
Definition work (h : heap) : nat := S (list_sum (map (fun i => S (match op_of h i with Some inputs => length inputs | None => 0 end)) (seq 0 (h_n h)))).
Definition get_derived_bases_set (h : heap) (i : nat) : dres dset := derived_bases_ (work h) h [i] [] [].

(** [is_dim_known], lines 905-922 *)
Definition is_dim_known (h : heap) (i : nat) : bool := kind_eqb (kind_of h i) Batch || has (dyn_of h i) || has (size_of h i).

(** One dim of [reset_raw], lines 373-409: the cache is cleared before its values are put to the queue, and what stays has no raw
    tensors; [reset] of the tensor object *)
Definition reset_one (h : heap) (i : nat) : heap :=
  let h := Heap (h_n h) (h_dim h) (h_nt h) (fun t => if match dyn_of h i with Some t' => t =? t' | None => false end then None else h_raw h t) in
  set_dim h i (if_extra (fun e => Extra (e_kind e) (e_vocab e) (e_same e) (e_tag e) (e_op e) (e_undefined e) (e_special e) (e_auto e)
    (if has (dyn_of h i) || negb (has (size_of h i)) then []
     else filter (fun kv => negb (has (dyn_of h (snd kv)) || negb (has (size_of h (snd kv))))) (e_cache e)))).
Fixpoint reset_raw (fuel : nat) (h : heap) (i : nat) : heap :=
  let s := same_as h i in
  let h := reset_one h i in
  match s, fuel with Some j, S f => reset_raw f h j | _, _ => h end.

(** [vocab] and its setter, lines 2040-2063; [None] is not set here *)
Definition vocab (h : heap) (i : nat) : option nat :=
  match base_ (h_n h) h i with Some b => e_vocab (get_extra (h_dim h b)) | None => None end.
Definition set_vocab (h : heap) (i : nat) (v : option nat) : heap :=
  if opt_eqb v (vocab h i) then h
  else match base_ (h_n h) h i with
  | Some b => set_dim h b (with_extra (fun e => Extra (e_kind e) v (e_same e) (e_tag e) (e_op e) (e_undefined e) (e_special e) (e_auto e) (e_cache e)))
  | None => h
  end.

Definition set_same (v : option nat) (e : extra) := Extra (e_kind e) (e_vocab e) v (e_tag e) (e_op e) (e_undefined e) (e_special e) (e_auto e) (e_cache e).
Definition clear_derived (e : extra) := Extra (e_kind e) (e_vocab e) (e_same e) None None (e_undefined e) (e_special e) (e_auto e) (e_cache e).
Definition set_op (v : option (list nat)) (e : extra) := Extra (e_kind e) (e_vocab e) (e_same e) (e_tag e) v (e_undefined e) (e_special e) (e_auto e) (e_cache e).
Definition set_auto (v : bool) (e : extra) := Extra (e_kind e) (e_vocab e) (e_same e) (e_tag e) (e_op e) (e_undefined e) (e_special e) v (e_cache e).
Definition set_cache (v : list (nat * nat)) (e : extra) := Extra (e_kind e) (e_vocab e) (e_same e) (e_tag e) (e_op e) (e_undefined e) (e_special e) (e_auto e) v.
(** [setdefault] of all items *)
Definition merge_cache (c d : list (nat * nat)) : list (nat * nat) :=
  fold_left (fun c kv => if existsb (fun x => fst x =? fst kv) c then c else c ++ [kv]) d c.

(** The first part of [declare_same_as], lines 1618-1654: whether it is to be done the other way around *)
Definition swaps (h : heap) (a b ab ob : nat) : dres bool :=
  let! db := get_same_derived_base h ob in
  if db =? ab then DOk true else
  if is_dim_known h a && negb (is_dim_known h b) then DOk true else
  let! c2 := (if has (op_of h ab) && negb (has (op_of h ob)) then let! s := get_derived_bases_set h a in DOk (negb (set_in h (dim_hash h b, b) s)) else DOk false) in
  if c2 : bool then DOk true else
  let! ua := undefined h a in
  let! c3 := (if ua : bool then DOk false else undefined h b) in
  if c3 : bool then DOk true else
  let! sb := get_derived_bases_set h b in
  let! sa := get_derived_bases_set h a in
  DOk (negb ((length sb =? length sa) && subset h sb sa) && subset h sa sb).

(** Lines 1655-1686: forget the derivation, reset the sizes, merge the cache *)
Definition prepare (h : heap) (a ab ob : nat) : dres heap :=
  let h := set_dim h a (if_extra clear_derived) in
  let h := (if has (op_of h ob) then reset_raw (h_n h) (reset_raw (h_n h) h ab) a else h) in
  match d_extra (h_dim h ab) with
  | None => DOk h
  | Some e =>
      match e_cache e, d_extra (h_dim h ob) with
      | _ :: _, None => DErr EAttribute
      | [], None => DOk h
      | c, Some eo =>
          let h := set_dim h ob (with_extra (set_cache (merge_cache (e_cache eo) c))) in
          DOk (set_dim h ab (with_extra (set_cache [])))
      end
  end.
(** Lines 1688-1749: [same_as] and the sizes *)
Definition link (h : heap) (a b ob : nat) : dres heap :=
  let h := set_dim h a (with_extra (set_same (Some ob))) in
  let h := (if has (raw_of h a) && negb (opt_eqb (raw_of h ob) (raw_of h a)) && negb (has (raw_of h ob)) then set_dim h ob (with_dyn (dyn_of h a)) else h) in
  let h := (if negb (has (dyn_of h a)) then set_dim h a (with_dyn (dyn_of h ob))
            else if negb (has (dyn_of h ob)) then set_dim h ob (with_dyn (dyn_of h a)) else h) in
  let! h := (if has (dyn_of h a) && negb (has (raw_of h a)) then
               match dyn_of h ob with
               | None => DErr EAttribute
               | Some t => if has (h_raw h t) then
                             DOk (set_dim (Heap (h_n h) (h_dim h) (S (h_nt h)) (fun u => if u =? h_nt h then h_raw h t else h_raw h u)) a (with_dyn (Some (h_nt h))))
                           else DOk h
               end
             else DOk h) in
  let ka := is_dim_known h a in
  let kb := is_dim_known h b in
  if ka && kb then let! _ := dassert (opt_eqb (size_of h a) (size_of h b)) in DOk h
  else if ka then DOk (set_dim h b (with_size (d_capacity (h_dim h a)) (size_of h a)))
  else if kb then DOk (set_dim h a (with_size (d_capacity (h_dim h b)) (size_of h b)))
  else DOk h.
(** Lines 1750-1766: vocabulary, [auto_generated], take over the derivation *)
Definition finish (h : heap) (a ab ob : nat) (sa sb : dset) : heap :=
  let h := (if has (vocab h a) && negb (has (vocab h ob)) then set_vocab h ob (vocab h a)
            else if has (vocab h ob) && negb (has (vocab h a)) then set_vocab h a (vocab h ob) else h) in
  let h := set_dim h a (with_extra (set_auto (auto h ob))) in
  let h := set_dim h ab (with_extra (set_auto (auto h ob))) in
  if subset h sb sa then h
  else if has (op_of h a) && negb (has (op_of h ob)) then set_dim h ob (with_extra (set_op (op_of h a)))
  else if has (op_of h ob) && negb (has (op_of h a)) then set_dim h a (with_extra (set_op (op_of h ob)))
  else h.

(** [declare_same_as], lines 1599-1773: [self] is [a], [other] is [b]; [guard] are the running calls of
    [guard_infinite_recursion], returnn/util/basic.py 3630-3650.  [EFuel] is never reached, see the proofs. *)
Fixpoint declare (fuel : nat) (guard : list (nat * nat)) (h : heap) (a b : nat) : dres heap :=
  match fuel with
  | O => DErr EFuel
  | S f =>
      let nested := fun h x y =>
        if existsb (fun k => (fst k =? x) && (snd k =? y)) guard then DErr ERecursion else declare f ((x, y) :: guard) h x y in
      let! _ := dassert (negb (special h a) && negb (special h b)) in
      if a =? b then DOk h else
      let! ob := get_same_base h b in
      if (a =? ob) || opt_eqb (same_as h a) (Some ob) then DOk h else
      let! ab := get_same_base h a in
      if ab =? ob then DOk h else
      let! sw := swaps h a b ab ob in
      if sw : bool then nested h b a else
      let! sb := get_derived_bases_set h b in
      let! sa := get_derived_bases_set h a in
      let! h := prepare h a ab ob in
      let! h := link h a b ob in
      let h := finish h a ab ob sa sb in
      if ab =? a then DOk h else
      let! _ := dassert (negb (has (same_as h ab)) && negb (ab =? ob)) in
      nested h ab ob
  end.
Definition declare_same_as (h : heap) (a b : nat) : dres heap := declare 8 [] h a b.
