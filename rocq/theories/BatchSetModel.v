(** Model of [BatchSetGenerator]: /repo/returnn/engine/batch.py:171-308.

    The batches are any values; the generator is the list of what it will still yield. [random.shuffle] is an arbitrary function given with each [reset] (the theorems assume that it permutes). *)
From Verif Require Import Base.

Section M.
Context {B : Type}.
Record bsg := mk_bsg {
  g_gen : list B; (* what the generator still yields *)
  g_whole : bool; (* cache_whole_epoch *)
  g_shuffle : bool; (* shuffle_batches *)
  g_cache : list B;
  g_buffer : list B;
  g_last : option B;
  g_end : bool; (* reached_end *)
  g_active : bool; (* cache_active *)
  g_idx : nat (* current_batch_idx *) }.

(** [_reset]: 201-208 *)
Definition reset_ (sh : list B -> list B) (s : bsg) : bsg :=
  mk_bsg (g_gen s) (g_whole s) (g_shuffle s) (g_cache s) (if g_shuffle s then sh (g_cache s) else g_cache s) None false (g_end s) 0.
(** [__init__]: 181-199 *)
Definition init (gen : list B) (shuffle whole : bool) (sh : list B -> list B) : bsg :=
  reset_ sh (mk_bsg gen whole shuffle [] [] None false false 0).
(** [reset]: 210-215 *)
Definition reset (sh : list B -> list B) (s : bsg) : res bsg := let* _ := assert_ (g_whole s) in Ok (reset_ sh s).
(** [_read_next]: 217-229 *)
Definition read_next (s : bsg) : bool * bsg :=
  if g_end s then (false, s)
  else match g_gen s with
       | [] => (false, mk_bsg [] (g_whole s) (g_shuffle s) (g_cache s) (g_buffer s) (g_last s) true (g_active s) (g_idx s))
       | b :: gen =>
           (true, mk_bsg gen (g_whole s) (g_shuffle s) (if g_whole s && negb (g_active s) then g_cache s ++ [b] else g_cache s)
                    (g_buffer s ++ [b]) (g_last s) (g_end s) (g_active s) (g_idx s))
       end.
(** [_read_next_up_to_n]: 231-236; [i] iterations remain *)
Fixpoint read_up_to (i n : nat) (s : bsg) : bsg :=
  match i with
  | O => s
  | S i' => if n <=? length (g_buffer s) then s else let (more, s') := read_next s in if more then read_up_to i' n s' else s'
  end.
(** [peek_next_n]: 238-245 *)
Definition peek_next_n (n : nat) (s : bsg) : list B * bsg := let s' := read_up_to n n s in (firstn n (g_buffer s'), s').
(** [advance]: 247-256 *)
Definition advance (n : nat) (s : bsg) : res bsg :=
  let* _ := assert_ (0 <? n) in
  let s := read_up_to n n s in
  let* _ := assert_ (n <=? length (g_buffer s)) in
  Ok (mk_bsg (g_gen s) (g_whole s) (g_shuffle s) (g_cache s) (skipn n (g_buffer s)) (nth_error (g_buffer s) (n - 1)) (g_end s) (g_active s) (g_idx s + n)).
(** [has_more]: 272-281 *)
Definition has_more (s : bsg) : bool * bsg := match g_buffer s with [] => read_next s | _ => (true, s) end.

(** A user of this class. *)
Inductive op := Peek (n : nat) | Advance (n : nat) | HasMore | Reset (sh : list B -> list B).
(** What the user sees. *)
Inductive answer := Peeked (bs : list B) | Advanced | More (b : bool) | WasReset.
Definition exec (o : op) (s : bsg) : res (answer * bsg) :=
  match o with
  | Peek n => let (bs, s') := peek_next_n n s in Ok (Peeked bs, s')
  | Advance n => let* s' := advance n s in Ok (Advanced, s')
  | HasMore => let (b, s') := has_more s in Ok (More b, s')
  | Reset sh => let* s' := reset sh s in Ok (WasReset, s')
  end.
(** Histories of successful calls. *)
Inductive history (s0 : bsg) : list (op * answer) -> bsg -> Prop :=
| h_nil : history s0 [] s0
| h_step h s o a s' : history s0 h s -> exec o s = Ok (a, s') -> history s0 (h ++ [(o, a)]) s'.
End M.
Arguments bsg : clear implicits. Arguments op : clear implicits. Arguments answer : clear implicits.
