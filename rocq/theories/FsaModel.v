(** Automata for the Baum-Welch op: CTC topology, staircase topology, and one automaton shared by a batch,
    returnn/util/fsa.py. *)
From Verif Require Import Base.
Local Open Scope Z_scope.

(** An edge (from, to, emission_idx, sequence_idx), util/fsa.py 1035-1040. Simplification: all weights that are built
    here are zero and left out. *)
Record edge := { e_from : nat; e_to : nat; e_emit : Z; e_seq : nat }.
Definition mk (s t : nat) (x : Z) (b : nat) : edge := {| e_from := s; e_to := t; e_emit := x; e_seq := b |}.

(** The result: all edges, and the start and end state of each sequence, util/fsa.py 1030-1050. *)
Record fsa := { f_edges : list edge; f_start_end : list (nat * nat) }.

(** [get_ctc_fsa_fast_bw], the body of the loop over the labels of a sequence, util/fsa.py 1182-1213: the edges that are
    appended, and the new state index. *)
Definition ctc_label (blank : Z) (b : nat) (row : list Z) (len i state : nat) : list edge * nat :=
  let label := nth i row 0 in
  let final := (i + 1 =? len)%nat in
  let next_final := (i + 2 =? len)%nat in
  let next := nth (i + 1) row 0 in
  let s1 := (state + 1)%nat in
  let s2 := (s1 + 1)%nat in
  ([mk state (state + 1) label b]
   ++ (if final then [mk state (state + 3) label b] else [])
   ++ [mk s1 s1 label b; mk s1 (s1 + 1) blank b]
   ++ (if negb final && negb (label =? next) then
         mk s1 (s1 + 2) next b :: (if next_final then [mk s1 (s1 + 4) next b] else [])
       else [])
   ++ (if final then [mk s1 (s1 + 2) label b; mk s1 (s1 + 2) blank b] else [])
   ++ [mk s2 s2 blank b]
   ++ (if final then [mk s2 (s2 + 1) blank b] else []),
   if final then (s2 + 1)%nat else s2).
Fixpoint ctc_labels (blank : Z) (b : nat) (row : list Z) (len : nat) (is : list nat) (state : nat) : list edge * nat :=
  match is with
  | [] => ([], state)
  | i :: is' =>
      let (es, s1) := ctc_label blank b row len i state in
      let (es', s2) := ctc_labels blank b row len is' s1 in
      (es ++ es', s2)
  end.

(** [get_ctc_fsa_fast_bw], util/fsa.py 1151-1221. *)
Fixpoint ctc_seqs (blank : Z) (n_time b : nat) (rows : list (list Z)) (lens : list nat) (state : nat) : res fsa :=
  match rows, lens with
  | row :: rows', len :: lens' =>
      let* _ := assert_ (len <=? n_time)%nat in
      let (es, final) := ctc_labels blank b row len (seq 0 len) state in
      let* r := ctc_seqs blank n_time (b + 1) rows' lens' (final + 1) in
      Ok {| f_edges := mk state state blank b :: es ++ f_edges r; f_start_end := (state, final) :: f_start_end r |}
  | _, _ => Ok {| f_edges := []; f_start_end := [] |}
  end.
Definition get_ctc_fsa (rows : list (list Z)) (n_time : nat) (lens : list nat) (blank : Z) : res fsa :=
  let* _ := assert_ (length lens =? length rows)%nat in
  ctc_seqs blank n_time 0 rows lens 0.

(** [fast_bw_fsa_staircase]: the limit of a state, util/fsa.py 1265-1271. [None] and 0 both mean that there is no
    limit; the result is 0 then. *)
Definition truthy (m : option nat) : bool := match m with Some (S _) => true | _ => false end.
Definition skip_of (m : option nat) : nat := match m with Some n => n | None => O end.
Definition cur_max_skip (len : nat) (max_skip start_skip end_skip : option nat) (i : nat) : nat :=
  let c := if (i =? 0)%nat then start_skip else None in
  let c := if negb (truthy c) && truthy end_skip && (len <=? i + skip_of end_skip)%nat then end_skip else c in
  let c := if truthy c then c else max_skip in
  skip_of c.
(** The edges that leave state [i], util/fsa.py 1263-1293. *)
Definition stair_state (b len : nat) (loop : bool) (skip state i : nat) : list edge :=
  let j_max := if (0 <? skip)%nat then Nat.min len (i + skip) else len in
  (if loop then [mk state state (Z.of_nat i) b] else [])
  ++ concat (map (fun j =>
       let target := (state + j - i)%nat in
       if (0 <? i)%nat then [mk state target (Z.of_nat i) b]
       else concat (map (fun t => if loop && (i =? t)%nat && (j <? len)%nat then [] else [mk state target (Z.of_nat t) b]) (seq i (j - i)))
            ++ (if loop && (j <? len)%nat then [mk state target (Z.of_nat j) b] else []))
     (seq (i + 1) (j_max - i))).
(** [fast_bw_fsa_staircase], util/fsa.py 1224-1298. The limits are given per sequence. *)
Fixpoint stair_seqs (loop : bool) (b : nat) (seqs : list (nat * (option nat * option nat * option nat))) (state : nat) : res fsa :=
  match seqs with
  | [] => Ok {| f_edges := []; f_start_end := [] |}
  | (len, (m, sm, em)) :: seqs' =>
      let* _ := assert_ (0 <? len)%nat in
      let es := concat (map (fun i => stair_state b len loop (cur_max_skip len m sm em i) (state + i) i) (seq 0 len)) in
      let final := (state + len)%nat in
      let* r := stair_seqs loop (b + 1) seqs' (final + 1) in
      Ok {| f_edges := es ++ f_edges r; f_start_end := (state, final) :: f_start_end r |}
  end.
Definition staircase (loop : bool) (seqs : list (nat * (option nat * option nat * option nat))) : res fsa := stair_seqs loop 0 seqs 0.

(** [FastBwFsaShared], util/fsa.py 1053-1148. [add_edge] keeps the number of states. *)
Record shared := { s_states : nat; s_edges : list (nat * nat * Z) }.
Definition shared_new : shared := {| s_states := 1; s_edges := [] |}.
Definition add_edge (s : shared) (source target : nat) (x : Z) : shared :=
  {| s_states := Nat.max (s_states s) (Nat.max (source + 1) (target + 1)); s_edges := s_edges s ++ [(source, target, x)] |}.
Definition add_inf_loop (s : shared) (state num_labels : nat) : shared :=
  fold_left (fun s x => add_edge s state state (Z.of_nat x)) (seq 0 num_labels) s.
Definition get_fast_bw_fsa (s : shared) (n_batch : nat) : fsa :=
  {| f_edges := concat (map (fun b => map (fun '(source, target, x) => mk (source + b * s_states s) (target + b * s_states s) x b) (s_edges s)) (seq 0 n_batch));
     f_start_end := map (fun b => (0 + b * s_states s, s_states s - 1 + b * s_states s))%nat (seq 0 n_batch) |}.
