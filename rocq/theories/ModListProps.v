(** ModuleList and ParameterList as python lists. *)
From Coq Require Import String Ascii.
From Verif Require Import Base PyDict ListLemmas ModTreeModel ModListModel ModListSpec ModListProofs.
Local Open Scope nat_scope.

(** A list of three modules, one of them with its own name *)
Definition ex_l : list (option string * nat) := [(None, 10); (Some "out"%string, 11); (None, 12)].
Definition ex_v : cont := [("0", AMod 10); ("out", AMod 11); ("2", AMod 12)]%string.
Example ex_represents : represents KMod ex_v ex_l.
Proof. split; [reflexivity|]. split; repeat constructor. easy. Qed.
Definition ex3 : cont := init_list KMod [10; 11; 12].

(** Building a list, of modules or of parameters. *)
Theorem C113_init k xs : represents k (init_list k xs) (numbered xs).
Proof. apply init_list_spec. Qed.
Print Assumptions C113_init.
Theorem C113_copy k v l : represents k v l -> represents k (init_copy k v) l.
Proof. apply init_copy_spec. Qed.
Print Assumptions C113_copy.
Theorem C113_append k v l x : represents k v l -> represents k (append k v x) (l ++ [(None, x)]).
Proof. apply append_spec. Qed.
Print Assumptions C113_append.
Theorem C113_extend k v l xs : represents k v l -> represents k (extend k v xs) (l ++ numbered xs).
Proof. apply extend_spec. Qed.
Print Assumptions C113_extend.
(** Reading: the length, the iteration, l[i] and l[a:b] with all python bounds *)
Theorem C113_read k v l i : represents k v l ->
  len k v = length l /\ iter k v = map snd l /\ getitem k v i = index (map snd l) i.
Proof. intros H. split; [now apply len_spec|]. split; [now apply iter_spec|now apply getitem_spec]. Qed.
Print Assumptions C113_read.
Theorem C113_slice k v l start stop : represents k v l -> represents k (getslice k v start stop) (slice l start stop).
Proof. apply getslice_spec. Qed.
Print Assumptions C113_slice.
Example C113_slice_ex : getslice KMod ex_v (Some (-2)%Z) None = [("out", AMod 11); ("1", AMod 12)]%string
  /\ append KMod ex_v 7 = [("0", AMod 10); ("out", AMod 11); ("2", AMod 12); ("3", AMod 7)]%string.
Proof. vm_compute. easy. Qed.

(** l[i] = x: the entry keeps its name. [p] is the position which python means with [i]. *)
Theorem C113_set v l i x p : represents KMod v l -> p < length l -> Z.of_nat p = (if (i <? 0)%Z then i + Z.of_nat (length l) else i)%Z ->
  exists v', setitem v i x = Ok v' /\ represents KMod v' (firstn p l ++ (match nth_error l p with Some e => fst e | None => None end, x) :: skipn (S p) l).
Proof.
  intros Hr Hp Hi. destruct (setitem_spec v l i x Hr p Hp Hi) as (v' & E & H). exists v'. split; [exact E|]. unfold set_entry in H.
  destruct (nth_error l p) as [(o, y)|] eqn:En; [exact H|]. apply nth_error_None in En. lia.
Qed.
Print Assumptions C113_set.
Example C113_set_ex : setitem ex_v (-2)%Z 7 = Ok [("0", AMod 10); ("out", AMod 7); ("2", AMod 12)]%string.
Proof. vm_compute. easy. Qed.
(** l[a:b] = xs and del l[a:b] (no xs), for bounds without surprises *)
Theorem C113_set_slice v l start stop xs : represents KMod v l -> plain_bounds (length l) start stop ->
  exists v', setslice v start stop (SList xs) = Ok v' /\ represents KMod v' (py_setslice l start stop (numbered xs)).
Proof. apply setslice_spec. Qed.
Print Assumptions C113_set_slice.
Theorem C113_del_slice v l start stop : represents KMod v l -> plain_bounds (length l) start stop ->
  exists v', delslice v start stop = Ok v' /\ represents KMod v' (py_setslice l start stop []).
Proof. apply (setslice_spec v l start stop []). Qed.
Print Assumptions C113_del_slice.
Theorem C113_del v l p : represents KMod v l -> p < length l ->
  exists v', delitem v (Z.of_nat p) = Ok v' /\ represents KMod v' (firstn p l ++ skipn (S p) l).
Proof. apply delitem_spec. Qed.
Print Assumptions C113_del.
Example C113_set_slice_ex : plain_bounds 3 (Some 1%Z) (Some (-1)%Z)
  /\ setslice ex_v (Some 1%Z) (Some (-1)%Z) (SList [7; 8]) = Ok [("0", AMod 10); ("1", AMod 7); ("2", AMod 8); ("3", AMod 12)]%string
  /\ setslice ex_v (Some 0%Z) (Some 1%Z) (SList [7; 8]) = Ok [("0", AMod 7); ("1", AMod 8); ("out", AMod 11); ("3", AMod 12)]%string
  /\ delitem ex_v 0 = Ok [("out", AMod 11); ("1", AMod 12)]%string.
Proof. split; [split; cbn; lia|]. vm_compute. easy. Qed.
(** the repo's own test, tests/test_rf_container.py test_module_slice_set_del *)
Example C113_repo_ex : let layers := init_list KMod [1; 2; 3; 4] in
  getslice KMod layers None None = layers
  /\ exists v, delslice layers (Some 2%Z) None = Ok v /\ map fst v = ["0"; "1"]%string
  /\ setslice v None None (SList (iter KMod layers)) = Ok layers.
Proof. cbn zeta. split; [vm_compute; reflexivity|]. eexists. split; [vm_compute; reflexivity|]. vm_compute. easy. Qed.

(** Other bounds. del l[-1] fails with the modules renamed half-way, or for one module does not delete it: *)
Theorem C113_del_last_refuted : delitem ex3 (-1) = Err AssertionError /\ delitem (init_list KMod [10]) (-1) = Ok [("-1", AMod 10)]%string.
Proof. vm_compute. easy. Qed.
Print Assumptions C113_del_last_refuted.
(** l[-1:] = [x] replaces the right module, but under another name; *)
Theorem C113_negative_refuted : setslice ex3 (Some (-1)%Z) None (SList [7]) = Ok [("0", AMod 10); ("1", AMod 11); ("-1", AMod 7)]%string.
Proof. vm_compute. easy. Qed.
Print Assumptions C113_negative_refuted.
(** with a start behind the end, later appends replace modules; *)
Theorem C113_behind_refuted : exists v, setslice ex3 (Some 5%Z) None (SList [7]) = Ok v
  /\ iter KMod v = [10; 11; 12; 7] /\ iter KMod (extend KMod v [20; 21; 22]) = [10; 11; 12; 22; 20].
Proof. eexists. split; [vm_compute; reflexivity|]. vm_compute. easy. Qed.
Print Assumptions C113_behind_refuted.
(** with a stop before the start, modules are duplicated; *)
Theorem C113_order_refuted : exists v, setslice ex3 (Some 2%Z) (Some 1%Z) (SList [7]) = Ok v
  /\ iter KMod v = [10; 11; 7; 11; 12] /\ py_setslice [10; 11; 12] (Some 2%Z) (Some 1%Z) [7] = [10; 11; 7; 12].
Proof. eexists. split; [vm_compute; reflexivity|]. vm_compute. easy. Qed.
Print Assumptions C113_order_refuted.
(** and l[:] = l deletes all modules. *)
Theorem C113_self_refuted l : setslice (init_list KMod l) None None SSelf = Ok [].
Proof.
  unfold setslice. destruct (init_list_spec KMod l) as (E & Hg). rewrite E, objs_W. rewrite slice_from. cbn [start_of skipn].
  pose proof (delete_all KMod [] (render_from 0 (numbered l))) as H. cbn [app map] in H. rewrite H by (apply render_nodup; exact Hg). reflexivity.
Qed.
Print Assumptions C113_self_refuted.

(** ParameterList: l[i] = p does not set the parameter but removes the i-th one, *)
Theorem C114_set_refuted v l p x : represents KParam v l -> p < length l ->
  exists v', param_setitem v (Z.of_nat p) x = Ok v' /\ iter KParam v' = map snd (firstn p l ++ skipn (S p) l).
Proof. apply param_setitem_spec. Qed.
Print Assumptions C114_set_refuted.
(** and a later append replaces another one. *)
Theorem C114_append_refuted : exists v, param_setitem (init_list KParam [10; 11; 12]) 0 7 = Ok v
  /\ iter KParam v = [11; 12] /\ iter KParam (append KParam v 8) = [11; 8].
Proof. eexists. split; [vm_compute; reflexivity|]. vm_compute. easy. Qed.
Print Assumptions C114_append_refuted.
(** All other operations are those of a list. *)
Theorem C114_build xs ys : represents KParam (extend KParam (init_list KParam xs) ys) (numbered (xs ++ ys)).
Proof.
  unfold numbered. rewrite map_app. apply extend_spec. apply init_list_spec.
Qed.
Print Assumptions C114_build.
Example C114_ex : init_list KParam [5; 6] = [("0", AParam 5); ("1", AParam 6)]%string /\ represents KParam (init_list KParam [5; 6]) (numbered [5; 6]).
Proof. split; [vm_compute; reflexivity|apply init_list_spec]. Qed.

(** Keys of a dict which are numbers are replaced by the index. *)
Example C113_int_keys : init_dict KMod [("-7", 1); ("+", 2); ("x", 3); ("1_0", 4); ("", 5); (" 8", 6); ("_1", 7); ("1_", 8)]%string
  = [("0", AMod 1); ("+", AMod 2); ("x", AMod 3); ("3", AMod 4); ("", AMod 5); ("5", AMod 6); ("_1", AMod 7); ("1_", AMod 8)]%string.
Proof. vm_compute. reflexivity. Qed.
