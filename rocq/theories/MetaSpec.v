(** What C53 and C54 are about: sequences of several datasets that belong together. *)
From Coq Require Import String.
From Verif Require Import Base PyDict MetaModel.
Local Open Scope nat_scope. Local Open Scope list_scope.

Section Spec.
  Context {X : Type}.
  (** The tags of the dataset [k], in the order in which the sequences of the datasets belong together: those of the file, or all of the dataset [default]. *)
  Definition tags_for (given : @dict string (sub X)) (f : seq_file) (default k : string) : option (list string) :=
    match f with
    | NoFile => option_map all_tags (dget given default)
    | OneList l => Some l
    | ListPerDataset d => dget d k
    end.
  (** [p] is the last position of [t] in [l] (the only one if there are no duplicates). *)
  Definition last_position (l : list string) (t : string) (p : nat) : Prop :=
    nth_error l p = Some t /\ forall q, p < q -> nth_error l q <> Some t.
  (** The positions that an epoch consists of. *)
  Inductive wants (given : @dict string (sub X)) (f : seq_file) (ctrl : option string) (default : string) (order : nat -> list nat) (epoch : nat) : order_arg -> list nat -> Prop :=
  | WantsOrder l : wants given f ctrl default order epoch (SeqOrder l) l
  | WantsTags l tags idx : tags_for given f default default = Some tags -> Forall2 (last_position tags) l idx -> wants given f ctrl default order epoch (SeqList l) idx
  | WantsControl k s seqs : ctrl = Some k -> dget given k = Some s -> seqs_of s epoch None = Ok seqs -> wants given f ctrl default order epoch Default (map (fun x => fst (fst x)) seqs)
  | WantsOwn : ctrl = None -> wants given f ctrl default order epoch Default (order epoch).
  (** The name of the dataset that gives the tags: the control dataset, or else the one of the data key "data". *)
  Definition default_of (m : @dict string (string * string)) (ctrl : option string) : option string :=
    match ctrl with Some k => Some k | None => option_map fst (dget m "data"%string) end.
  (** The data of the sub-dataset [k] for a tag is always the same. *)
  Definition faithful (given : @dict string (sub X)) (content : string -> string -> option (@dict string X)) : Prop :=
    forall k s epoch l seqs n t d, dget given k = Some s -> seqs_of s epoch l = Ok seqs -> In (n, t, d) seqs -> content k t = Some d.

  (** Loading, again and again. What fails is ignored. *)
  Definition loads (c : conf X) (st : meta X) (l : list (nat * nat)) : meta X := fold_left (fun st ab => fst (load_seqs c st (fst ab) (snd ab))) l st.

  (** A sub-dataset which can be given a list of its tags, and which then has these sequences, with all its data keys. *)
  Definition can_order (s : sub X) : Prop := forall epoch l, incl l (all_tags s) ->
    exists seqs, seqs_of s epoch (Some l) = Ok seqs /\ map (fun x => snd (fst x)) seqs = l /\ forall n t d, In (n, t, d) seqs -> incl (outputs s) (dkeys d).
  (** A sub-dataset whose corpus indices are the positions in the list of its tags. *)
  Definition own_order (s : sub X) : Prop := forall epoch,
    exists seqs, seqs_of s epoch None = Ok seqs /\ forall n t d, In (n, t, d) seqs -> nth_error (all_tags s) n = Some t /\ incl (outputs s) (dkeys d).
  (** What is asked for exists: known tags, or positions in the list of the tags. *)
  Definition valid_request (ctrl : option string) (order : nat -> list nat) (epoch : nat) (arg : order_arg) (tags : list string) : Prop :=
    match arg with SeqOrder l => Forall (fun p => p < length tags) l | SeqList l => incl l tags | Default => ctrl = None -> Forall (fun p => p < length tags) (order epoch) end.
  (** Loads in a row: each starts not before the last one did, and ends within the epoch. *)
  Fixpoint forward_loads (n lo : nat) (l : list (nat * nat)) : Prop :=
    match l with [] => True | (a, b) :: l' => lo <= a /\ a <= b /\ b <= n /\ forward_loads n a l' end.
End Spec.
