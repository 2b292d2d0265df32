(** The names of modules and parameters. *)
From Coq Require Import String Ascii.
From Verif Require Import Base PyDict ListLemmas ModTreeModel ModTreeSpec ModTreeProofs ModParamProofs ModSetProofs ModPtProofs.
Local Open Scope nat_scope.

(** A model with a shared module: a.sub and s are the same module, and w of s is also used as a.v. *)
Definition ex_heap : heap :=
  [[("a", AMod 1); ("s", AMod 2); ("dim", AOther 7)]; [("sub", AMod 2); ("v", AParam 0); ("bias", AParam 1)]; [("w", AParam 0); ("stat", AParam 2)]]%string.
Lemma ex_good : good_heap ex_heap.
Proof.
  assert (Hn : forall n, In n ["a"; "s"; "dim"; "sub"; "v"; "bias"; "w"; "stat"]%string -> good_name n).
  { intros n H. repeat (destruct H as [<-|H]; [split; [discriminate|cbn; intuition discriminate]|]). easy. }
  intros [|[|[|m]]].
  - split; [repeat constructor; cbn; intuition discriminate|]. intros n a H. repeat (destruct H as [[= <- <-]|H]; [split; [apply Hn; cbn; tauto|cbn; lia || exact I]|]). easy.
  - split; [repeat constructor; cbn; intuition discriminate|]. intros n a H. repeat (destruct H as [[= <- <-]|H]; [split; [apply Hn; cbn; tauto|cbn; lia || exact I]|]). easy.
  - split; [repeat constructor; cbn; intuition discriminate|]. intros n a H. repeat (destruct H as [[= <- <-]|H]; [split; [apply Hn; cbn; tauto|cbn; lia || exact I]|]). easy.
  - assert (E : vars ex_heap (S (S (S m))) = []) by (destruct m; reflexivity). rewrite E. split; [constructor|easy].
Qed.
Lemma ex_acyclic : acyclic ex_heap.
Proof.
  exists (fun m => 3 - m). intros [|[|[|m]]] n k H; cbn in H; [| | |destruct m; destruct H];
    repeat (destruct H as [H|H]; [try discriminate; injection H as <- <-; cbn; lia|]); easy.
Qed.

(** Every module which can be reached over attributes has exactly one name, a shortest path to it; names are distinct. *)
Theorem C110_modules h root : good_heap h -> root < length h ->
  exists l, named_modules h root true true = Ok l /\ names_of (path h root) l.
Proof. apply modules_spec. Qed.
Print Assumptions C110_modules.
Example C110_modules_ex : named_modules ex_heap 0 true true = Ok [("", 0); ("a", 1); ("s", 2)]%string.
Proof. vm_compute. reflexivity. Qed.

(** The same for parameters: shared ones are given once. *)
Theorem C110_parameters h root : good_heap h -> root < length h ->
  exists l, named_parameters h root true = Ok l /\ names_of (param_path h root) l.
Proof. apply params_spec. Qed.
Print Assumptions C110_parameters.
Example C110_parameters_ex : good_heap ex_heap /\ named_parameters ex_heap 0 true = Ok [("a.v", 0); ("a.bias", 1); ("s.stat", 2)]%string.
Proof. split; [exact ex_good|vm_compute; reflexivity]. Qed.

(** get_deep finds a parameter exactly under the names of paths to it, so also under all names above. *)
Theorem C110_get_parameter h root t p : good_heap h ->
  get_deep h root t = Ok (AParam p) <-> exists ns, t = dotted ns /\ param_path h root ns p.
Proof. intros Hg. now apply get_deep_param. Qed.
Print Assumptions C110_get_parameter.
Theorem C110_get_module h root t k : good_heap h ->
  get_deep h root t = Ok (AMod k) <-> exists ns, t = dotted ns /\ path h root ns k.
Proof. intros Hg. now apply get_deep_module. Qed.
Print Assumptions C110_get_module.
Example C110_get_ex : get_deep ex_heap 0 "a.sub.w" = Ok (AParam 0) /\ get_deep ex_heap 0 "a.v" = Ok (AParam 0) /\ get_deep ex_heap 0 "a.x" = Err OtherException.
Proof. vm_compute. easy. Qed.

(** set_deep sets the attribute, if the target has at most one dot... *)
Theorem C111_set h root ns n m v : good_heap h -> root < length h -> path h root ns m -> good_name n -> length ns <= 1 ->
  exists h', set_deep h root (dotted (ns ++ [n])) v = Ok h' /\ written h h' m n v.
Proof. intros Hg Hr. now apply set_deep_spec. Qed.
Print Assumptions C111_set.
(** ... and fails for every deeper target, though get_deep accepts it: rsplit(".", 2) gives three parts. *)
Theorem C111_set_refuted h root ns n v : Forall good_name ns -> good_name n -> 2 <= length ns ->
  set_deep h root (dotted (ns ++ [n])) v = Err ValueError.
Proof. apply set_deep_fails. Qed.
Print Assumptions C111_set_refuted.
Example C111_set_ex : set_deep ex_heap 0 "a.bias" (AParam 9)
    = Ok [[("a", AMod 1); ("s", AMod 2); ("dim", AOther 7)]; [("sub", AMod 2); ("v", AParam 0); ("bias", AParam 9)]; [("w", AParam 0); ("stat", AParam 2)]]%string
  /\ set_deep ex_heap 0 "a.sub.w" (AParam 9) = Err ValueError.
Proof. vm_compute. easy. Qed.

(** apply calls the function for exactly the modules which can be reached, for children before their parents, and for the module itself at last. *)
Theorem C111_apply fuel h m calls : apply_trace fuel h m = Ok calls ->
  (forall k, In k calls <-> reachable h m k) /\ children_first h calls /\ exists before, calls = before ++ [m].
Proof. apply apply_spec. Qed.
Print Assumptions C111_apply.
Theorem C111_apply_total h m : acyclic h -> exists fuel calls, apply_trace fuel h m = Ok calls.
Proof. intros H. now apply apply_total. Qed.
Print Assumptions C111_apply_total.
(** but for a shared module more than once *)
Theorem C111_apply_once_refuted : ~ forall fuel h m calls, good_heap h -> apply_trace fuel h m = Ok calls -> NoDup calls.
Proof.
  intros H. assert (E : apply_trace 5 ex_heap 0 = Ok [2; 1; 2; 0]) by (vm_compute; reflexivity).
  specialize (H _ _ _ _ ex_good E). inversion H as [|? ? Hn _]; subst. apply Hn. cbn. tauto.
Qed.
Print Assumptions C111_apply_once_refuted.

(** The state dict of the torch module has exactly the parameters under all names of paths to them. *)
Theorem C112_state_dict fuel h aux as_buffers m t : good_heap h -> to_pt fuel h aux as_buffers m = Ok t ->
  NoDup (map fst (state_dict "" t)) /\ forall n p, In (n, p) (state_dict "" t) <-> exists ns, n = dotted ns /\ param_path h m ns p.
Proof. intros Hg. now apply state_dict_spec. Qed.
Print Assumptions C112_state_dict.
Theorem C112_total h aux as_buffers m : good_heap h -> acyclic h -> exists fuel t, to_pt fuel h aux as_buffers m = Ok t.
Proof. intros Hg Ha. now apply to_pt_total. Qed.
Print Assumptions C112_total.
(** A module which contains itself (which named_parameters can handle) cannot be converted. *)
Theorem C112_cyclic h aux as_buffers m ns : path h m ns m -> ns <> [] -> forall fuel t, to_pt fuel h aux as_buffers m <> Ok t.
Proof. apply to_pt_cycle. Qed.
Print Assumptions C112_cyclic.

(** named_parameters and named_buffers of the torch module: each parameter once, auxiliary ones as buffers if wanted, under the name of a path. *)
Theorem C112_named fuel h aux as_buffers m t : good_heap h -> to_pt fuel h aux as_buffers m = Ok t ->
  let ps := pt_named_parameters t in let bs := pt_named_buffers t in
  NoDup (map snd (ps ++ bs))
  /\ (forall p, In p (map snd ps) <-> (exists ns, param_path h m ns p) /\ aux p && as_buffers = false)
  /\ (forall p, In p (map snd bs) <-> (exists ns, param_path h m ns p) /\ aux p && as_buffers = true)
  /\ forall n p, In (n, p) (ps ++ bs) -> exists ns, n = dotted ns /\ param_path h m ns p.
Proof.
  intros Hg E. cbn zeta.
  destruct (named_spec h aux as_buffers Hg pt_params true (fun _ _ _ => eq_refl) fuel m t E) as (A1 & A2 & A3).
  destruct (named_spec h aux as_buffers Hg pt_buffers false (fun _ _ _ => eq_refl) fuel m t E) as (B1 & B2 & B3).
  unfold pt_named_parameters, pt_named_buffers. split; [|split; [exact A2|split; [exact B2|]]].
  - rewrite map_app. apply NoDup_app_intro2; [exact A1|exact B1|]. intros p Hp Hq. apply A2 in Hp as (_ & Hp). apply B2 in Hq as (_ & Hq).
    cbn in Hp, Hq. congruence.
  - intros n p Hin. apply in_app_iff in Hin as [H|H]; [now apply A3|now apply B3].
Qed.
Print Assumptions C112_named.
(** Without sharing, these are the names which the RF module gives. *)
Theorem C112_agree fuel h aux as_buffers m t l : good_heap h -> m < length h -> unshared h m ->
  to_pt fuel h aux as_buffers m = Ok t -> named_parameters h m true = Ok l ->
  forall n p, In (n, p) l <-> In (n, p) (pt_named_parameters t ++ pt_named_buffers t).
Proof.
  intros Hg Hm (_ & Hu) E El n p. destruct (C112_named _ _ _ _ _ _ Hg E) as (_ & A & B & C).
  destruct (params_spec h m Hg Hm) as (l' & El' & _ & _ & D & F). assert (l' = l) by congruence. subst l'. split.
  - intros Hin. destruct (F _ _ Hin) as (ns & -> & Hp & _).
    assert (Hin2 : In p (map snd (pt_named_parameters t ++ pt_named_buffers t))).
    { rewrite map_app, in_app_iff. destruct (aux p && as_buffers) eqn:Ea; [right; apply B|left; apply A]; (split; [now exists ns|easy]). }
    apply in_map_iff in Hin2 as ((n2, q) & <- & Hin2). cbn [snd] in *. destruct (C _ _ Hin2) as (ns2 & -> & Hp2). now rewrite (Hu _ _ _ Hp Hp2).
  - intros Hin. destruct (C _ _ Hin) as (ns & -> & Hp). assert (Hin2 : In p (map snd l)) by (apply D; now exists ns).
    apply in_map_iff in Hin2 as ((n2, q) & <- & Hin2). cbn [snd] in *. destruct (F _ _ Hin2) as (ns2 & -> & Hp2 & _). now rewrite (Hu _ _ _ Hp Hp2).
Qed.
Print Assumptions C112_agree.
(** With sharing they can differ: the RF module searches breadth first, torch depth first. *)
Theorem C112_shared_refuted : ~ forall fuel h aux as_buffers m t l, good_heap h -> m < length h ->
  to_pt fuel h aux as_buffers m = Ok t -> named_parameters h m true = Ok l ->
  forall n p, In (n, p) l -> In (n, p) (pt_named_parameters t ++ pt_named_buffers t).
Proof.
  intros H. destruct (to_pt 5 ex_heap (fun p => p =? 2) true 0) as [t|] eqn:E; [|vm_compute in E; discriminate].
  assert (El : named_parameters ex_heap 0 true = Ok [("a.v", 0); ("a.bias", 1); ("s.stat", 2)]%string) by (vm_compute; reflexivity).
  specialize (H 5 ex_heap (fun p => p =? 2) true 0 t _ ex_good (Nat.lt_0_succ _) E El "s.stat"%string 2).
  vm_compute in E. apply Ok_inj in E. subst t. vm_compute in H. intuition discriminate.
Qed.
Print Assumptions C112_shared_refuted.
Example C112_ex : exists t, to_pt 5 ex_heap (fun p => p =? 2) true 0 = Ok t
  /\ state_dict "" t = [("a.v", 0); ("a.bias", 1); ("a.sub.w", 0); ("a.sub.stat", 2); ("s.w", 0); ("s.stat", 2)]%string
  /\ pt_named_parameters t = [("a.v", 0); ("a.bias", 1)]%string /\ pt_named_buffers t = [("a.sub.stat", 2)]%string.
Proof. eexists. split; [vm_compute; reflexivity|]. vm_compute. easy. Qed.
(** a model without sharing *)
Example C112_unshared_ex : unshared [[("a", AMod 1)]; [("w", AParam 0)]]%string 0.
Proof.
  assert (Hpath : forall ns m, path [[("a", AMod 1)]; [("w", AParam 0)]]%string 0 ns m -> (ns = [] /\ m = 0) \/ (ns = ["a"%string] /\ m = 1)).
  { intros ns m H. inversion H as [|? n k ns' ? Hin Hp]; subst; [now left|]. right. cbn in Hin. destruct Hin as [[= <- <-]|[]].
    inversion Hp as [|? n2 k2 ns2 ? Hin2 Hp2]; subst; [easy|]. cbn in Hin2. destruct Hin2 as [?|[]]; discriminate. }
  split.
  - intros ns ns' m H H'. apply Hpath in H, H'. destruct H as [[-> ->]|[-> ->]], H' as [[-> H']|[-> H']]; congruence.
  - intros ns ns' p (n1 & x1 & m1 & -> & H1 & I1) (n2 & x2 & m2 & -> & H2 & I2).
    apply Hpath in H1, H2. destruct H1 as [[-> ->]|[-> ->]], H2 as [[-> ->]|[-> ->]]; cbn in I1, I2;
      destruct I1 as [I1|[]], I2 as [I2|[]]; congruence.
Qed.
