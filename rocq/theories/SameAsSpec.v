(** What declaring dims the same should do. *)
From Coq Require Import Relations.
From Verif Require Import Base SameAsModel.

(** Following [same_as] from a dim ends at another one. *)
Inductive chain (h : heap) : nat -> nat -> Prop :=
| chain_end i : same_as h i = None -> chain h i i
| chain_step i j b : same_as h i = Some j -> chain h j b -> chain h i b.
(** Following [same_as] always ends: there are no cycles. *)
Definition wf (h : heap) : Prop := forall i, i < h_n h -> (exists b, chain h i b) /\ forall j, same_as h i = Some j -> j < h_n h.
Definition same (h : heap) (i j : nat) : Prop := exists b, chain h i b /\ chain h j b.
(** Dims made by the user: no batch dims and none generated by RETURNN *)
Definition user_dims (h : heap) : Prop := forall i, auto h i = false /\ kind_of h i <> Batch.
(** Nothing was declared same yet. *)
Definition fresh (h : heap) : Prop := forall i, same_as h i = None.
(** Several declarations in a row *)
Fixpoint declare_all (h : heap) (l : list (nat * nat)) : dres heap :=
  match l with [] => DOk h | (a, b) :: l' => match declare_same_as h a b with DOk h' => declare_all h' l' | DErr e => DErr e end end.
(** The least equivalence relation with all declared pairs *)
Definition declared (l : list (nat * nat)) : nat -> nat -> Prop := clos_refl_sym_trans nat (fun x y => In (x, y) l).
(** A new dim [Dim(None)] *)
Definition blank (h : heap) (a : nat) : Prop := d_extra (h_dim h a) = None /\ dyn_of h a = None /\ size_of h a = None.
(** A dim which is no other one and not derived from others, without both a static size and a tensor of sizes *)
Definition plain (h : heap) (b : nat) : Prop := same_as h b = None /\ tag_of h b = None /\ op_of h b = None /\ special h b = false /\ undef h b = false /\ (size_of h b = None \/ dyn_of h b = None).
