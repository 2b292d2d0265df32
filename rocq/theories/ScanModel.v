(* Loops: /repo/returnn/frontend/loop.py while_loop and scan (eager backends), nested.py mask_nested as used there,
   tensor_array.py with the lists of /repo/returnn/frontend/_backend.py 1348-1371 and
   /repo/returnn/torch/frontend/_backend.py 2285-2311.

   All tensors have at most one batch dim, here a list of entries ([cond_dims], or the dims of the sizes of
   spatial_dim; several dims are like one merged dim). The state is split into what does not have this dim ([H]) and
   what has ([S] for each entry); without any batch dim there is one entry, and everything is in [S]. Nested
   structures are not modelled further; changing dims in the state and the checks of the templates are left out. *)
From Coq Require Import List Arith Bool.
From Verif Require Import Base.
Import ListNotations.

(* loop.py 58-66: while cond(s): s = body(s) *)
Fixpoint while_loop {A} (fuel : nat) (cond : A -> bool) (body : A -> res A) (s : A) : res A :=
  match fuel with
  | O => Err OutOfFuel
  | S fuel => if cond s then let* s := body s in while_loop fuel cond body s else Ok s
  end.

(* nested.py 92-117: where(mask, s, mask_value) for tensors with the dims of the mask *)
Definition where_ {A} (mask : list bool) (s mask_value : list A) : list A :=
  map (fun p : bool * (A * A) => if fst p then fst (snd p) else snd (snd p)) (combine mask (combine s mask_value)).

Section Scan.
Context {X H S Y : Type}.

(* the state: a tensor without the dims of the mask is not masked (nested.py 113-116) *)
Definition mask_nested (mask : list bool) (s mask_value : H * list S) : H * list S :=
  (fst s, where_ mask (snd s) (snd mask_value)).

Definition list_max_ (l : list nat) : nat := fold_right max 0 l.

(* loop.py 188-218: spatial_dim is known, with the sizes [lens]. [xs] are the frames (each a list over the
   entries). TensorArrays are lists; x[i] is an IndexError after the end. Result: ys and the final state. *)
Definition scan_known (fuel : nat) (body : list X -> H * list S -> list Y * (H * list S)) (lens : list nat)
    (initial : H * list S) (xs : list (list X)) : res (list (list Y) * (H * list S)) :=
  let* r := while_loop fuel
    (fun s : nat * (H * list S) * list (list Y) => let '(i, _, _) := s in i <? list_max_ lens)
    (fun s => let '(i, st, ys) := s in
       let* x := match nth_error xs i with Some x => Ok x | None => Err IndexError end in
       let '(y, st') := body x st in
       Ok (i + 1, mask_nested (map (fun n => i <? n) lens) st' st, ys ++ [y]))
    (0, initial, []) in
  let '(_, st, ys) := r in Ok (ys, st).

(* loop.py 139-186: spatial_dim is unknown. [n] is the number of entries of cond_dims. Result: ys, the final state,
   and the sizes of the new dim. *)
Definition scan_cond (fuel : nat) (body : H * list S -> list Y * (H * list S)) (cond : H * list S -> list bool)
    (n : nat) (cond_before_body : bool) (max_seq_len : option nat) (initial : H * list S)
  : res (list (list Y) * (H * list S) * list nat) :=
  let initial_cond := if cond_before_body then cond initial else repeat true n in
  let* r := while_loop fuel
    (fun s : nat * list nat * list bool * (H * list S) * list (list Y) => let '(i, _, c, _, _) := s in
       let c := existsb (fun b => b) c in
       match max_seq_len with Some m => c && (i <? m) | None => c end)
    (fun s => let '(i, seq_len, prev_cond, st, ys) := s in
       let seq_len := map (fun p => fst p + if snd p : bool then 1 else 0) (combine seq_len prev_cond) in
       let '(y, st') := body st in
       let ys := ys ++ [y] in
       let c := map (fun p => andb (fst p) (snd p)) (combine (cond st') prev_cond) in
       let st' := mask_nested c st' st in
       Ok (i + 1, seq_len, c, st', ys))
    (0, repeat 0 n, initial_cond, initial, []) in
  let '(_, seq_len, _, st, ys) := r in Ok (ys, st, seq_len).

End Scan.

(* tensor_array.py 66-78 with _backend.py 1348-1356: TensorArrays refer to python lists in a store; push_back
   appends to the list of the array, and the new TensorArray refers to the same list. *)
Definition store (A : Type) := list (list A).
Definition contents {A} (st : store A) (a : nat) : list A := nth a st [].
Definition ta_create {A} (st : store A) : store A * nat := (st ++ [[]], length st).
Definition ta_push_back {A} (st : store A) (a : nat) (x : A) : store A * nat :=
  (firstn a st ++ match skipn a st with l :: r => (l ++ [x]) :: r | [] => [] end, a).
