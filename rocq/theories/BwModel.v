(** Model of the kernels [FastBaumWelchOp] and [FastViterbiOp] of /repo/returnn/native_op.py.

    On a GPU the threads of a kernel run in any interleaving, on a CPU one after the other. A kernel is modelled by its
    complete runs, over all interleavings of its threads. A thread that handles several edges one after the other is taken as
    several threads, which allows more interleavings. An array is a function of the index. *)
From Verif Require Import Base FsaModel.
Local Open Scope nat_scope.

(** ** Threads with a shared memory *)
Section Threads.
Context {M L : Type}.
Context (step : M -> L -> M -> L -> Prop) (finished : L -> Prop).
Definition set_nth (i : nat) (l : L) (ls : list L) : list L := firstn i ls ++ l :: skipn (S i) ls.
Inductive run : M -> list L -> M -> list L -> Prop :=
| run_end m ls : run m ls m ls
| run_step m ls i l m1 l1 m2 ls2 :
    nth_error ls i = Some l -> step m l m1 l1 -> run m1 (set_nth i l1 ls) m2 ls2 -> run m ls m2 ls2.
(** all threads have returned *)
Definition completes (m : M) (ls : list L) (m' : M) : Prop := exists ls', run m ls m' ls' /\ Forall finished ls'.
End Threads.

(** the memory after a write *)
Definition write {K T : Type} (eqb : K -> K -> bool) (m : K -> T) (x : K) (v : T) : K -> T := fun y => if eqb y x then v else m y.

(** ** [atomic_prob_add] *)
Section Atomic.
Context {K T U : Type} (eqb : K -> K -> bool) (f : T -> U -> T).
(** native_op.py 3127-3138, a call for the cell [x] and the argument [u]: before the first read; in the loop with [old]; after
    the loop. [f] is [prob_add]. The bits of the floats are compared. *)
Inductive adder := Start (x : K) (u : U) | Loop (x : K) (u : U) (old : T) | Done (x : K) (u : U).
Inductive add_step : (K -> T) -> adder -> (K -> T) -> adder -> Prop :=
| add_read m x u : add_step m (Start x u) m (Loop x u (m x))
| add_cas m x u old : m x = old -> add_step m (Loop x u old) (write eqb m x (f old u)) (Done x u)
| add_retry m x u old : m x <> old -> add_step m (Loop x u old) m (Loop x u (m x)).
Definition added (l : adder) : Prop := exists x u, l = Done x u.
End Atomic.
Arguments Start {K T U}. Arguments Loop {K T U}. Arguments Done {K T U}.

(** ** FastViterbiOp *)
Section Viterbi.
(** the scores: floats without NaN. [bot] is the negative infinity. *)
Context {V : Type} (ltb : V -> V -> bool) (add : V -> V -> V) (bot zero : V).

(** [IdxAndVal], 4550-4554 *)
Definition cell := (Z * V)%type.

(** [select_max] (4555-4585) for the state [x] and the candidate [c]: at the fast path; at the top of the loop; between the
    reads of the two fields of [prev]; before the compare-and-swap; after it. *)
Inductive selector :=
| SStart (x : nat) (c : cell) | SRead (x : nat) (c : cell) | SIdx (x : nat) (c : cell) (i : Z) | SVal (x : nat) (c : cell) (v : V)
| SCas (x : nat) (c prev : cell) | SDone (x : nat) (c : cell).
(** 4572-4577 *)
Definition after_read (x : nat) (c prev : cell) : selector :=
  if ltb (snd c) (snd prev) then SDone x c
  else if negb (ltb (snd prev) (snd c)) && (fst prev <=? fst c)%Z then SDone x c
  else SCas x c prev.
(** [torn]: the copy [prev.s = *a] of the packed struct may be done field by field. *)
Inductive select_step (torn : bool) : (nat -> cell) -> selector -> (nat -> cell) -> selector -> Prop :=
| sel_fast m x c : ltb (snd c) (snd (m x)) = true -> select_step torn m (SStart x c) m (SDone x c)
| sel_loop m x c : ltb (snd c) (snd (m x)) = false -> select_step torn m (SStart x c) m (SRead x c)
| sel_read m x c : select_step torn m (SRead x c) m (after_read x c (m x))
| sel_idx m x c : torn = true -> select_step torn m (SRead x c) m (SIdx x c (fst (m x)))
| sel_idx_val m x c i : select_step torn m (SIdx x c i) m (after_read x c (i, snd (m x)))
| sel_val m x c : torn = true -> select_step torn m (SRead x c) m (SVal x c (snd (m x)))
| sel_val_idx m x c v : select_step torn m (SVal x c v) m (after_read x c (fst (m x), v))
| sel_cas m x c prev : m x = prev -> select_step torn m (SCas x c prev) (write Nat.eqb m x c) (SDone x c)
| sel_retry m x c prev : m x <> prev -> select_step torn m (SCas x c prev) m (SRead x c).
Definition selected (l : selector) : Prop := exists x c, l = SDone x c.

(** The inputs: number of frames, length and start and end state for each sequence, edges with weights, scores by frame,
    sequence and label. *)
Context (n_time : nat) (seqs : list (nat * (nat * nat))) (edges : list (edge * V)) (am : nat -> nat -> Z -> V).
Definition seq_len (b : nat) : nat := match nth_error seqs b with Some (n, _) => n | None => 0 end.

(** [init_buffer], [init_first_frame] (4586-4620) *)
Definition empty_frame : nat -> cell := fun _ => ((-1)%Z, bot).
Definition first_frame : nat -> cell := fun s => ((-1)%Z, if existsb (fun q => fst (snd q) =? s) seqs then zero else bot).
(** [next_frame] (4621-4663): the threads that call [select_max] *)
Definition candidates (t : nat) (prev : nat -> cell) : list selector :=
  flat_map (fun '(i, (e, w)) =>
      if t <? seq_len (e_seq e) then
        [SStart (e_to e) (Z.of_nat i, add (add (snd (prev (e_from e))) w) (am t (e_seq e) (e_emit e)))]
      else [])
    (combine (seq 0 (length edges)) edges).
Definition next_frame (torn : bool) (t : nat) (prev next : nat -> cell) : Prop :=
  completes (select_step torn) selected empty_frame (candidates t prev) next.
(** [select_best_path] (4687-4725) for sequence [b], from the frames down to 0: the labels of the frames *)
Fixpoint best_path (frames : nat -> nat -> cell) (b : nat) (n : nat) (cur : nat) : list Z :=
  match n with
  | 0 => []
  | S t =>
      if t <? seq_len b then
        let i := fst (frames (S t) cur) in
        if (0 <=? i)%Z then
          match nth_error edges (Z.to_nat i) with
          | Some (e, _) => best_path frames b t (e_from e) ++ [e_emit e]
          | None => []
          end
        else best_path frames b t cur ++ [0%Z]
      else best_path frames b t cur ++ [0%Z]
  end.
(** [c_fw_code] (4728-4843): the outputs, for each sequence the labels and the score. [select_scores]: 4664-4686. *)
Definition fast_viterbi (torn : bool) (out : list (list Z * V)) : Prop :=
  exists frames : nat -> nat -> cell,
    frames 0 = first_frame
    /\ (forall t, t < n_time -> next_frame torn t (frames t) (frames (S t)))
    /\ out = map (fun '(b, (n, (_, stop))) => (best_path frames b n_time stop, snd (frames n stop))) (combine (seq 0 (length seqs)) seqs).
End Viterbi.

(** ** FastBaumWelchOp *)
Section BaumWelch.
(** The scores as probabilities: [add] is the sum ([prob_add] in -log space), [mul] the product (the sum there), [quot] the
    quotient, [zero] the infinity there, [one] 0. All exact. *)
Context {T : Type} (add mul quot : T -> T -> T) (zero one : T) (is_zero : T -> bool).

(** [prob_add] (3115-3126). The argument is [None] if it is NaN: the result is then infinity. *)
Definition prob_add (a : T) (b : option T) : T := match b with Some y => add a y | None => zero end.

Context (n_frames : nat) (start_end : list (nat * nat)) (edges : list (edge * T)) (am : nat -> nat -> Z -> T) (index : nat -> nat -> bool).

(** [next_frame] (3248-3281): the new edge buffer of this frame, and the threads that add. [fwd]: forward. *)
Definition e_prev (fwd : bool) (prev : nat -> T) (e : edge) : T := prev (if fwd then e_from e else e_to e).
Definition e_val (fwd : bool) (t : nat) (prev : nat -> T) (ew : edge * T) : T :=
  mul (mul (e_prev fwd prev (fst ew)) (snd ew)) (am t (e_seq (fst ew)) (e_emit (fst ew))).
Definition edge_buffer (fwd : bool) (t : nat) (prev : nat -> T) (buffer : list T) : list T :=
  map (fun '(b, ew) =>
         if is_zero (e_prev fwd prev (fst ew)) then zero
         else mul b (if fwd then e_val fwd t prev ew else e_prev fwd prev (fst ew)))
      (combine buffer edges).
Definition frame_adders (fwd : bool) (t : nat) (prev : nat -> T) : list (@adder nat T (option T)) :=
  flat_map (fun ew =>
      if is_zero (e_prev fwd prev (fst ew)) then []
      else [Start (if fwd then e_to (fst ew) else e_from (fst ew)) (Some (e_val fwd t prev ew))])
    edges.
Definition next_states (fwd : bool) (t : nat) (prev next : nat -> T) : Prop :=
  completes (add_step Nat.eqb prob_add) added (fun _ => zero) (frame_adders fwd t prev) next.
(** [set_start_states] (3090-3096), after the fill *)
Definition start_states : nat -> T := fun s => if existsb (fun q => fst q =? s) start_end then one else zero.
(** [init_bwd_state_buffer] (3237-3247) *)
Definition set_end_states (t : nat) (states : nat -> T) : nat -> T :=
  fun s => if existsb (fun '(b, q) => index t b && ((t =? n_frames - 1) || negb (index (S t) b)) && (snd q =? s))
                      (combine (seq 0 (length start_end)) start_end)
           then one else states s.
(** [normalize] (3282-3313): the sums, and the new buffer. INF - INF is NaN. *)
Definition seq_sum (buffer : list T) (b : nat) : T :=
  fold_left (fun s '(x, ew) => if e_seq (fst ew) =? b then prob_add s (Some x) else s) (combine buffer edges) zero.
Definition sum_output (buffer : list T) (b : nat) : T := let s := seq_sum buffer b in if is_zero s then one else s.
Definition normalize (buffer : list T) : list (option T) :=
  map (fun '(x, ew) => let s := seq_sum buffer (e_seq (fst ew)) in if is_zero s && is_zero x then None else Some (quot x s))
      (combine buffer edges).
(** [compute_result] (3314-3332): the cells are frame, sequence, label. *)
Definition key_eqb (x y : nat * nat * Z) : bool :=
  (fst (fst x) =? fst (fst y)) && (snd (fst x) =? snd (fst y)) && (snd x =? snd y)%Z.
Definition result_adders (buffers : nat -> list (option T)) : list (@adder (nat * nat * Z) T (option T)) :=
  flat_map (fun t => map (fun '(x, ew) => Start (t, e_seq (fst ew), e_emit (fst ew)) x) (combine (buffers t) edges)) (seq 0 n_frames).
(** [c_fw_code] (3409-3607): the output and the sums *)
Definition fast_baum_welch (out : nat * nat * Z -> T) (sums : nat -> nat -> T) : Prop :=
  exists fwd bwd : nat -> nat -> T,
    fwd 0 = start_states /\ (forall t, t < n_frames -> next_states true t (fwd t) (fwd (S t)))
    /\ bwd n_frames = (fun _ => zero)
    /\ (forall t, t < n_frames -> next_states false t (set_end_states t (bwd (S t))) (bwd t))
    /\ let buffer t := edge_buffer false t (set_end_states t (bwd (S t))) (edge_buffer true t (fwd t) (repeat one (length edges))) in
       sums = (fun t b => sum_output (buffer t) b)
       /\ completes (add_step key_eqb prob_add) added (fun _ => zero) (result_adders (fun t => normalize (buffer t))) out.
End BaumWelch.
