(** C132: the cache of the frontend. *)
From Coq Require Import String ZArith QArith List Bool Arith Lia.
From Verif Require Import Base FCacheModel FCacheSpec FCacheProofs.
Import ListNotations.
Local Open Scope nat_scope.

(** Caching is transparent: whatever was stored, evicted or went out of scope before, a hit
    gives what the function would give for this very key, with the dims of this key. *)
Theorem C132_transparent : forall n F ops e k v,
  natural F ->
  (forall e0 k0 v0, In (OpSet e0 k0 v0) ops -> v0 = F (place e0 k0) k0 /\ NoDup (key_dims k0)) ->
  cget e k (run n ops) = Ok (Some v) -> v = F (place e k) k.
Proof. exact transparent. Qed.
Print Assumptions C132_transparent.

(** The cache never holds more than its maximum number of entries. *)
Theorem C132_bounded : forall n ops, length (entries (run n ops)) <= n.
Proof. exact bounded. Qed.
Print Assumptions C132_bounded.

(** A new entry is found again, unchanged, until as many other entries were set as the cache
    can hold, as long as nothing goes out of scope. *)
Theorem C132_kept : forall n ops e k v ops',
  0 < n -> Forall defined k -> value_backend e v = backend_of e k ->
  cget e k (run n ops) = Ok None ->
  (forall d, In d (key_dims k) -> ~ In (OpDie (ODim d)) ops) ->
  forallb (fun o => negb (is_die o)) ops' = true -> n_sets ops' < n ->
  cget e k (run n (ops ++ OpSet e k v :: ops')) = Ok (Some v).
Proof. exact kept. Qed.
Print Assumptions C132_kept.

(** The lookup never fails on a dim which is gone, if every stored value mentions the dims of
    known size of its key. *)
Theorem C132_no_stale_dim : forall n ops e k,
  keys_alive ops ->
  (forall e k v, In (OpSet e k v) ops -> forall d w x, In (KDim d (Some w) x) k -> In d (value_dims v)) ->
  cget e k (run n ops) <> Err AssertionError.
Proof. exact no_assert. Qed.
Print Assumptions C132_no_stale_dim.

(** Once a tensor is gone, no key with a tensor at the same address is found. *)
Theorem C132_dead_tensor : forall n ops e k t rw v,
  In (KTensor t rw) k -> cget e k (run n (ops ++ [OpDie (OTensor t)])) <> Ok (Some v).
Proof. exact dead_tensor. Qed.
Print Assumptions C132_dead_tensor.

(** In graph mode, once the run context is gone, nothing of it is found any more. *)
Theorem C132_dead_run_ctx : forall n ops e k v,
  eager e (backend_of e k) = false -> cget e k (run n (ops ++ [OpDie (OCtx (ctx e))])) <> Ok (Some v).
Proof. exact dead_ctx. Qed.
Print Assumptions C132_dead_run_ctx.

(** Examples: torch is backend 0 and eager, TF is backend 1 and builds a graph. *)
Definition torch : env := mkEnv 0 (fun b => Nat.eqb b 0) 100.
Definition tf (c : nat) : env := mkEnv 1 (fun b => Nat.eqb b 0) c.

(** The positional encoding for dims 10 (time, 7 frames) and 11 (feature, 4), looked up with
    another time dim of the same size, gets the dims of the caller. *)
Definition enc (p : nat * option nat) (k : list kitem) : value :=
  VTensor (key_dims k) None.
Example ex_hit :
  cget torch [KDim 12 (Some 7) None; KDim 11 (Some 4) None; KRaw (RStr "float32")]
    (run 128 [OpSet torch [KDim 10 (Some 7) None; KDim 11 (Some 4) None; KRaw (RStr "float32")]
                (VTensor [10; 11] (Some (50, 0)))])
  = Ok (Some (VTensor [12; 11] (Some (50, 0)))).
Proof. vm_compute. reflexivity. Qed.
Example ex_other_size :
  cget torch [KDim 12 (Some 8) None; KDim 11 (Some 4) None; KRaw (RStr "float32")]
    (run 128 [OpSet torch [KDim 10 (Some 7) None; KDim 11 (Some 4) None; KRaw (RStr "float32")]
                (VTensor [10; 11] (Some (50, 0)))])
  = Ok None.
Proof. vm_compute. reflexivity. Qed.
Example ex_dyn_size :
  cget torch [KDim 10 None (Some 31)]
    (run 128 [OpSet torch [KDim 10 None (Some 30)] (VDim 10)]) = Ok None /\
  cget torch [KDim 10 None (Some 30)]
    (run 128 [OpSet torch [KDim 10 None (Some 30)] (VDim 10)]) = Ok (Some (VDim 10)) /\
  cget torch [KDim 10 None (Some 30)]
    (run 128 [OpSet torch [KDim 10 None (Some 30)] (VRaw 3); OpDie (ORaw 30)]) = Ok None.
Proof. repeat split; vm_compute; reflexivity. Qed.
Example ex_graph :
  cget (tf 100) [KDim 10 (Some 7) None]
    (run 128 [OpSet (tf 100) [KDim 10 (Some 7) None] (VDim 10)]) = Ok (Some (VDim 10)) /\
  cget (tf 101) [KDim 10 (Some 7) None]
    (run 128 [OpSet (tf 100) [KDim 10 (Some 7) None] (VDim 10)]) = Ok None.
Proof. split; vm_compute; reflexivity. Qed.
Example ex_backend :
  cset torch [KDim 10 (Some 7) None] (VTensor [10] (Some (50, 1))) (new_cache 5) = Err ValueError.
Proof. reflexivity. Qed.
Example ex_oldest_dropped :
  let c := run 2 [OpSet torch [KRaw (RInt 1)] (VRaw 1); OpSet torch [KRaw (RInt 2)] (VRaw 2);
                  OpSet torch [KRaw (RInt 3)] (VRaw 3)] in
  cget torch [KRaw (RInt 1)] c = Ok None /\ cget torch [KRaw (RInt 2)] c = Ok (Some (VRaw 2)).
Proof. split; vm_compute; reflexivity. Qed.

(** The function of the first example satisfies the hypothesis of transparency. *)
Example ex_natural : natural enc.
Proof.
  intros p rho k k' H. unfold enc. cbn [rename]. f_equal.
  induction H as [|i j k k' Hi Hk IH]; [reflexivity|].
  unfold key_dims in *. cbn [flat_map]. rewrite IH, map_app. f_equal.
  inversion Hi; subst; cbn [item_dims map]; congruence.
Qed.

(** Refuted: transparency also for keys which mention a dim twice.  Stored for (10, 10) and
    looked up for (12, 13), all of the same size, the first dim of the key becomes 13. *)
Definition first_dim (p : nat * option nat) (k : list kitem) : value :=
  match key_dims k with d :: _ => VDim d | [] => VRaw 0 end.
Theorem C132_repeated_dims_refuted :
  ~ (forall n F ops e k v, natural F ->
       (forall e0 k0 v0, In (OpSet e0 k0 v0) ops -> v0 = F (place e0 k0) k0) ->
       cget e k (run n ops) = Ok (Some v) -> v = F (place e k) k).
Proof.
  intros H.
  assert (Hn : natural first_dim).
  { intros p rho k k' Hf. unfold first_dim.
    assert (E : key_dims k' = map rho (key_dims k)).
    { induction Hf as [|i j k k' Hi Hk IH]; [reflexivity|].
      unfold key_dims in *. cbn [flat_map]. rewrite IH, map_app. f_equal.
      inversion Hi; subst; cbn [item_dims map]; congruence. }
    rewrite E. destruct (key_dims k); reflexivity. }
  specialize (H 128 first_dim [OpSet torch [KDim 10 (Some 7) None; KDim 10 (Some 7) None] (VDim 10)]
    torch [KDim 12 (Some 7) None; KDim 13 (Some 7) None] (VDim 13) Hn).
  assert (E : VDim 13 = VDim 12); [|discriminate].
  apply H; [|vm_compute; reflexivity].
  intros e0 k0 v0 [E | []]. injection E as <- <- <-. reflexivity.
Qed.
Print Assumptions C132_repeated_dims_refuted.

(** Refuted: a lookup gives the value which was set last.  Setting a key again is ignored. *)
Theorem C132_set_overwrites_refuted :
  ~ (forall n ops e k v, 0 < n -> Forall defined k -> key_dims k = [] ->
       value_backend e v = backend_of e k -> cget e k (run n (ops ++ [OpSet e k v])) = Ok (Some v)).
Proof.
  intros H.
  specialize (H 128 [OpSet torch [KRaw (RInt 1)] (VRaw 1)] torch [KRaw (RInt 1)] (VRaw 2)).
  assert (E : Ok (Some (VRaw 1)) = Ok (Some (VRaw 2))); [|discriminate].
  rewrite <- H; [vm_compute; reflexivity | lia | repeat constructor | reflexivity | reflexivity].
Qed.
Print Assumptions C132_set_overwrites_refuted.

(** Refuted: the entry looked up just before is not the one which is dropped (with room for
    two or more).  Lookups do not count as a use, the order is that of the insertion. *)
Theorem C132_least_recently_used_refuted :
  ~ (forall n ops e k v e' k' v', 2 <= n ->
       cget e k (run n ops) = Ok (Some v) ->
       cget e k (run n (ops ++ [OpGet e k; OpSet e' k' v'])) = Ok (Some v)).
Proof.
  intros H.
  specialize (H 2 [OpSet torch [KRaw (RInt 1)] (VRaw 1); OpSet torch [KRaw (RInt 2)] (VRaw 2)]
    torch [KRaw (RInt 1)] (VRaw 1) torch [KRaw (RInt 3)] (VRaw 3) (le_n 2)).
  assert (E : @Ok (option value) None = Ok (Some (VRaw 1))); [|discriminate].
  rewrite <- H; vm_compute; reflexivity.
Qed.
Print Assumptions C132_least_recently_used_refuted.

(** Refuted: a lookup of a well-defined key never raises.  When the value does not mention
    the dim of the key and that dim is gone, a lookup with a new dim of the same size fails
    the assertion. *)
Theorem C132_lookup_total_refuted :
  ~ (forall n ops e k, keys_alive (ops ++ [OpGet e k]) -> Forall defined k ->
       exists r, cget e k (run n ops) = Ok r).
Proof.
  intros H.
  destruct (H 128 [OpSet torch [KDim 10 (Some 7) None] (VRaw 1); OpDie (ODim 10)] torch [KDim 12 (Some 7) None])
    as (r & Hr).
  - intros pre o post E d Hd Hi.
    destruct pre as [|p [|q [|s pre]]]; cbn [app] in E; injection E as.
    + contradiction.
    + subst. destruct Hi as [Hi | []]. discriminate.
    + subst. cbn in Hd, Hi. destruct Hd as [<- | []]. destruct Hi as [Hi | [Hi | []]]; discriminate.
    + destruct pre; discriminate.
  - constructor; [cbn [defined]; left; discriminate | constructor].
  - vm_compute in Hr. discriminate.
Qed.
Print Assumptions C132_lookup_total_refuted.

(** Refuted: the same for a dim without any sizes yet.  The comparison calls [None]. *)
Theorem C132_undefined_dim_refuted :
  ~ (forall n ops e d, exists r, cget e [KDim d None None] (run n ops) = Ok r).
Proof.
  intros H. destruct (H 128 [OpSet torch [KDim 10 None None] (VDim 10)] torch 10) as (r & Hr).
  vm_compute in Hr. discriminate.
Qed.
Print Assumptions C132_undefined_dim_refuted.

(** Refuted: keys of different structure are different keys.  Only the leaves count. *)
Theorem C132_structure_refuted :
  ~ (forall n e k v k' v', k <> k' ->
       cget e (flatten k') (run n [OpSet e (flatten k) v]) <> Ok (Some v')).
Proof.
  intros H.
  apply (H 128 torch (KDict [("begin"%string, KLeaf (KRaw (RInt 1)))]) (VRaw 1)
           (KDict [("end"%string, KLeaf (KRaw (RInt 1)))]) (VRaw 1)); [discriminate|].
  vm_compute. reflexivity.
Qed.
Print Assumptions C132_structure_refuted.

(** Refuted: a tensor without content can be part of a key. *)
Theorem C132_template_key_refuted :
  ~ (forall n ops e t, exists r, cget e [KTensor t None] (run n ops) = Ok r).
Proof.
  intros H. destruct (H 128 [] torch 10) as (r & Hr). vm_compute in Hr. discriminate.
Qed.
Print Assumptions C132_template_key_refuted.
