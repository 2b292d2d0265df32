(* The loop for one sequence alone. *)
From Coq Require Import List Arith Bool.
From Verif Require Import Base.
Import ListNotations.

Section Spec.
Context {X H S Y : Type}.

(* The body of the loop handles every entry of the batch on its own: [fs] is its function for one entry, [fh] that of
   the part of the state without the batch dim. *)
Definition entrywise_x (fh : H -> H) (fs : X -> H -> S -> Y * S) (body : list X -> H * list S -> list Y * (H * list S)) : Prop :=
  forall xs h ss, length xs = length ss ->
    body xs (h, ss) = (map (fun p => fst (fs (fst p) h (snd p))) (combine xs ss),
                       (fh h, map (fun p => snd (fs (fst p) h (snd p))) (combine xs ss))).

(* One sequence alone: outputs and the final state *)
Fixpoint alone (fh : H -> H) (fs : X -> H -> S -> Y * S) (h : H) (s : S) (xs : list X) : list Y * S :=
  match xs with
  | [] => ([], s)
  | x :: xs => let '(y, s') := fs x h s in let '(ys, sf) := alone fh fs (fh h) s' xs in (y :: ys, sf)
  end.

(* The frames of entry b, without the padding *)
Definition own (xs : list (list X)) (b len : nat) (l : list X) : Prop :=
  length l = len /\ forall t x, nth_error l t = Some x -> exists f, nth_error xs t = Some f /\ nth_error f b = Some x.

(* The same without inputs: while cond(s): y, s = body(s) *)
Definition entrywise (fh : H -> H) (fs : H -> S -> Y * S) (body : H * list S -> list Y * (H * list S)) : Prop :=
  forall h ss, body (h, ss) = (map (fun s => fst (fs h s)) ss, (fh h, map (fun s => snd (fs h s)) ss)).
Definition entrywise_cond (gc : H -> S -> bool) (cond : H * list S -> list bool) : Prop :=
  forall h ss, cond (h, ss) = map (gc h) ss.

Inductive while_alone (fh : H -> H) (fs : H -> S -> Y * S) (gc : H -> S -> bool) : H -> S -> list Y -> S -> Prop :=
| while_end h s : gc h s = false -> while_alone fh fs gc h s [] s
| while_step h s y s' ys sf : gc h s = true -> fs h s = (y, s') -> while_alone fh fs gc (fh h) s' ys sf ->
    while_alone fh fs gc h s (y :: ys) sf.

(* while True: y, s = body(s); if not cond(s): break *)
Definition do_while_alone fh fs gc (h : H) (s : S) (ys : list Y) (sf : S) : Prop :=
  exists y s' r, fs h s = (y, s') /\ while_alone fh fs gc (fh h) s' r sf /\ ys = y :: r.

Definition loop_alone (before : bool) fh fs gc (h : H) (s : S) (ys : list Y) (sf : S) : Prop :=
  if before then while_alone fh fs gc h s ys sf else do_while_alone fh fs gc h s ys sf.

(* the state after k times the body *)
Fixpoint after (fh : H -> H) (fs : H -> S -> Y * S) (h : H) (s : S) (k : nat) : S :=
  match k with 0 => s | Datatypes.S k => after fh fs (fh h) (snd (fs h s)) k end.

Definition is_max (n : nat) (l : list nat) : Prop := (forall x, In x l -> x <= n) /\ (In n l \/ (n = 0 /\ l = [])).
End Spec.
