(** C140: the walk over the consumers of tensors. Model: WalkModel; vocabulary: WalkSpec. *)
From Verif Require Import Base ListLemmas WalkModel WalkSpec WalkProofs.
Local Open Scope nat_scope. Local Open Scope list_scope.

(** For every graph, also with cycles: the walk ends, and without functions it gives each tensor that can be reached from the seeds exactly once, nearer ones first. *)
Theorem C140_walk : forall n consumers seeds, graph_ok n consumers seeds -> exists order, walk_tensor_consumers n consumers seeds None None = Ok order /\
  NoDup order /\ (forall x, In x order <-> reachable consumers seeds x) /\ ForallOrdPairs (not_farther consumers seeds) order.
Proof.
  intros n consumers seeds H. destruct (call_total consumers n seeds None None H) as (order & E). exists order. split; [exact E|]. destruct (call_order consumers seeds n order E) as (H1 & H2 & H3). auto.
Qed.
Print Assumptions C140_walk.

(** With functions: it is cut after the first tensor that ends it, and the outputs are filtered, also this last one. *)
Theorem C140_functions : forall n consumers seeds f e, graph_ok n consumers seeds -> exists order,
  walk_tensor_consumers n consumers seeds None None = Ok order /\
  walk_tensor_consumers n consumers seeds (Some f) None = Ok (filter f order) /\
  walk_tensor_consumers n consumers seeds None (Some e) = Ok (upto e order) /\
  walk_tensor_consumers n consumers seeds (Some f) (Some e) = Ok (filter f (upto e order)).
Proof.
  intros n consumers seeds f e H. destruct (call_total consumers n seeds None None H) as (order & E). exists order. split; [exact E|]. unfold walk_tensor_consumers in *.
  assert (U : forall l, upto (test None false) l = l) by (induction l as [|x l IH]; cbn; [reflexivity|]; now rewrite IH). assert (F : forall l, filter (test None true) l = l) by (induction l as [|x l IH]; cbn; [reflexivity|]; now rewrite IH).
  rewrite (walk_cut consumers _ (Some f) None _ _ _ E), (walk_cut consumers _ None (Some e) _ _ _ E), (walk_cut consumers _ (Some f) (Some e) _ _ _ E), U, F. auto.
Qed.
Print Assumptions C140_functions.

(** As the journal of random numbers uses it, with the same function twice: the nearest tensor with the property, or nothing if there is none. *)
Theorem C140_nearest : forall n consumers seeds p, graph_ok n consumers seeds ->
  (walk_tensor_consumers n consumers seeds (Some p) (Some p) = Ok [] /\ forall x, reachable consumers seeds x -> p x = false) \/
  (exists x, walk_tensor_consumers n consumers seeds (Some p) (Some p) = Ok [x] /\ reachable consumers seeds x /\ p x = true /\
    forall y, reachable consumers seeds y -> p y = true -> not_farther consumers seeds x y).
Proof.
  intros n consumers seeds p H. destruct (C140_functions n consumers seeds p p H) as (order & E & _ & _ & ->). destruct (call_order consumers seeds n order E) as (_ & O & A). clear E.
  assert (G : (filter p (upto p order) = [] /\ forall x, In x order -> p x = false) \/ exists x, filter p (upto p order) = [x] /\ In x order /\ p x = true /\ forall y, In y order -> p y = true -> not_farther consumers seeds x y).
  { clear A. induction O as [|x l Hx O IH]; [left; split; [reflexivity|contradiction]|]. cbn. destruct (p x) eqn:Ep; cbn; rewrite Ep.
    - right. exists x. split; [reflexivity|]. split; [now left|]. split; [exact Ep|]. rewrite Forall_forall in Hx. intros y [<-|Hy] _; [intros k; trivial|auto].
    - destruct IH as [[E F]|(z & E & Hz & Hp & F)]; [left|right].
      + split; [exact E|]. intros y [<-|Hy]; auto.
      + exists z. split; [exact E|]. split; [now right|]. split; [exact Hp|]. intros y [<-|Hy] Hpy; [congruence|auto]. }
  destruct G as [[E F]|(x & E & Hx & Hp & F)]; [left|right; exists x]; rewrite E.
  - split; [reflexivity|]. intros x Hx. apply F, A, Hx.
  - split; [reflexivity|]. split; [now apply A|]. split; [exact Hp|]. intros y Hy. apply F, A, Hy.
Qed.
Print Assumptions C140_nearest.

(** Not only consumers are given, as the description says: the first output is always a seed itself, also if it does not consume any tensor. *)
Theorem C140_seed_refuted : forall n consumers s seeds, graph_ok n consumers (s :: seeds) -> exists l, walk_tensor_consumers n consumers (s :: seeds) None None = Ok (s :: l).
Proof.
  intros n consumers s seeds H. destruct (call_total consumers n (s :: seeds) None None H) as (order & E). rewrite E. unfold walk_tensor_consumers in E. cbn [length plus walk is_seen existsb test] in E. rewrite walk_acc in E. destruct (walk _ consumers None None [s] _ []) as [l|]; [|discriminate]. injection E as <-. exists l. reflexivity.
Qed.
Print Assumptions C140_seed_refuted.

(** A graph with a cycle (3 to 1), and two ways to 4 *)
Definition ex_consumers (x : nat) : list nat := match x with 0 => [1; 2] | 1 => [3; 4] | 2 => [4] | 3 => [1] | _ => [] end.
Example C140_ex : graph_ok 6 ex_consumers [0] /\ walk_tensor_consumers 6 ex_consumers [0] None None = Ok [0; 1; 2; 3; 4] /\
  walk_tensor_consumers 6 ex_consumers [0] (Some (fun x => 2 <=? x)) None = Ok [2; 3; 4] /\ walk_tensor_consumers 6 ex_consumers [0] (Some (fun x => 2 <=? x)) (Some (fun x => 2 <=? x)) = Ok [2] /\
  walk_tensor_consumers 6 ex_consumers [2; 1] None None = Ok [2; 1; 4; 3] /\ walk_tensor_consumers 6 ex_consumers [0] (Some (fun x => x =? 5)) (Some (fun x => x =? 5)) = Ok [].
Proof.
  split; [|repeat split; reflexivity]. split; [intros x [<-|[]]; lia|]. intros x y H. do 5 (destruct x as [|x]; cbn in H; [intuition lia|]). contradiction.
Qed.
