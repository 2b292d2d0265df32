(** Model of the journal of random numbers: /repo/returnn/frontend/_random_journal.py. [V] is what else is in an entry (the numbers, the
    distribution and its parameters, the contexts). *)
From Coq Require Import String.
From Verif Require Import Base WalkModel.
Local Open Scope nat_scope. Local Open Scope list_scope.

(** [ControlFlowContext]: /repo/returnn/tensor/control_flow_ctx.py. A context is the list of the contexts around it, the innermost (it
    itself) first; the root is the empty list. Each has a number. *)
Definition cf_ctx := list nat.
Fixpoint ctx_eqb (a b : cf_ctx) : bool :=
  match a, b with [], [] => true | x :: a, y :: b => (x =? y) && ctx_eqb a b | _, _ => false end.
(** the loop, control_flow_ctx.py 119-123 *)
Fixpoint in_outer (parent child : cf_ctx) : bool :=
  match child with [] => false | _ :: outer => if ctx_eqb child parent then true else in_outer parent outer end.
(** [is_parent_or_same], control_flow_ctx.py 106-123 *)
Definition is_parent_or_same (parent child : cf_ctx) : bool :=
  if ctx_eqb parent child then true
  else match parent, child with
       | [], _ => true
       | _, [] => false
       | _, _ => in_outer parent child
       end.

Section Journal.
  Context {V : Type}.
  (** the template of a tensor: [dtype] and [Dim.dimension] of its dims *)
  Record template := { x_dtype : string; x_dims : list (option nat) }.
  (** [RandomJournalEntry], frontend/_random_journal.py 122-138; [out] may be missing *)
  Record entry := { e_out : option template; e_rest : V }.
  (** [RandomJournal.__init__], frontend/_random_journal.py 22-25; the tensors of the graph reader nodes are numbers, the run contexts as well *)
  Record journal := { j_entries : list entry; j_idx : nat; j_nodes : list (nat * nat) }.
  Definition new_journal : journal := {| j_entries := []; j_idx := 0; j_nodes := [] |}.
  (** [append], frontend/_random_journal.py 27-55 *)
  Definition append (j : journal) (e : entry) : journal := {| j_entries := j_entries j ++ [e]; j_idx := j_idx j; j_nodes := j_nodes j |}.
  Definition size_eqb (a b : option nat) : bool := match a, b with Some a, Some b => a =? b | None, None => true | _, _ => false end.
  (** the checks, frontend/_random_journal.py 61-76. Without [out], AttributeError. *)
  Definition check_template (new_out_template : option template) (e : entry) : res unit :=
    match new_out_template with
    | None => Ok tt
    | Some t =>
        match e_out e with
        | None => Err OtherException
        | Some o =>
            let* _ := assert_ (x_dtype t =? x_dtype o)%string in
            let* _ := assert_ (List.length (x_dims t) =? List.length (x_dims o)) in
            assert_ (forallb (fun p => size_eqb (fst p) (snd p)) (combine (x_dims t) (x_dims o)))
        end
    end.
  (** [get_next], frontend/_random_journal.py 57-78 *)
  Definition get_next (j : journal) (new_out_template : option template) : journal * res entry :=
    match nth_error (j_entries j) (j_idx j) with
    | None => (j, Err AssertionError)
    | Some e =>
        match check_template new_out_template e with
        | Err x => (j, Err x)
        | Ok _ => ({| j_entries := j_entries j; j_idx := j_idx j + 1; j_nodes := j_nodes j |}, Ok e)
        end
    end.
  (** [reached_end], frontend/_random_journal.py 80-82 *)
  Definition reached_end (j : journal) : bool := List.length (j_entries j) <=? j_idx j.
  (** [add_graph_reader_node], frontend/_random_journal.py 84-91 *)
  Definition add_graph_reader_node (j : journal) (out run_ctx : nat) : journal :=
    {| j_entries := j_entries j; j_idx := j_idx j; j_nodes := j_nodes j ++ [(out, run_ctx)] |}.
  (** [get_graph_reader_idx], frontend/_random_journal.py 93-95 *)
  Definition get_graph_reader_idx (j : journal) : nat := List.length (j_nodes j).
  (** [get_recent_graph_reader_node_in_accessible_ctx], frontend/_random_journal.py 97-119, in a graph with [n] tensors and the control flow context of each. The body of the
      loop always returns, so there is only the first round. *)
  Definition get_recent (n : nat) (consumers : nat -> list nat) (ctx_of : nat -> cf_ctx) (j : journal) (cur_ctx : cf_ctx) (cur_run_ctx : nat) : res (option nat) :=
    match rev (j_nodes j) with
    | [] => Ok None
    | (prev_out, prev_run_ctx) :: _ =>
        if negb (prev_run_ctx =? cur_run_ctx) then Ok None
        else if is_parent_or_same (ctx_of prev_out) cur_ctx then Ok (Some prev_out)
        else
          let ok x := is_parent_or_same (ctx_of x) cur_ctx in
          let* l := walk_tensor_consumers n consumers [prev_out] (Some ok) (Some ok) in
          match l with [] => Err OtherException | x :: _ => Ok (Some x) end
    end.
  (** What can be done with a journal *)
  Inductive op := Append (e : entry) | Next (t : option template) | AddNode (out run_ctx : nat).
  Definition do_op (j : journal) (o : op) : journal * list (res entry) :=
    match o with
    | Append e => (append j e, [])
    | Next t => let '(j, r) := get_next j t in (j, [r])
    | AddNode out r => (add_graph_reader_node j out r, [])
    end.
  Fixpoint run (j : journal) (ops : list op) : journal * list (res entry) :=
    match ops with
    | [] => (j, [])
    | o :: ops => let '(j, r) := do_op j o in let '(j, rs) := run j ops in (j, r ++ rs)
    end.
  (** [random_journal_replay], /repo/returnn/tf/frontend_layers/_backend.py 838-849: the body runs with the journal. Nothing is done with it at the end. *)
  Definition random_journal_replay (j : journal) (body : list op) : journal * list (res entry) := run j body.
End Journal.
