(** Model of the chunking of one sequence at dataset level: [Dataset.iterate_seqs], /repo/returnn/datasets/basic.py:1132-1231, for a chunk size other than 0.

    The NumbersDicts [length], [chunk_size], [chunk_step] and [min_chunk_size] are total functions here: for every used data key there is a number. [K] are the keys of [length] (all keys or the used ones) and [d] is [default_key]; [chunking_variance] is 0; [custom_chunking_func] is not used. *)
From Coq Require Import String.
From Verif Require Import Base.
Local Open Scope nat_scope. Local Open Scope list_scope. Local Open Scope Z_scope.

Section M.
Variables (K : list string) (d : string) (len size step minc : string -> Z).
(** lines 1189-1211: which keys are always given completely, or an exception *)
Fixpoint full_keys (ks : list string) : res (list string) :=
  match ks with
  | [] => Ok []
  | k :: ks' =>
      if (step k =? step d) && (len k =? len d) then full_keys ks'
      else if len k <=? 1 then let* r := full_keys ks' in Ok (k :: r)
      else if step k =? step d then Err OtherException
      else
        let limit := if minc k =? 0 then 1 else minc k in
        let limit_default := if minc d =? 0 then 1 else minc d in
        if step k =? 0 then Err ZeroDivisionError
        else let* _ := assert_ ((len k - limit) / step k + 1 =? (len d - limit_default) / step d + 1) in full_keys ks'
  end.
(** one chunk: for each key its start and its end *)
Definition chunk := list (string * (Z * Z)).
(** lines 1213-1221 *)
Definition chunk_at (full : list string) (i : Z) : chunk :=
  map (fun k => (k, if existsb (String.eqb k) full then (0, len k) else (i * step k, Z.min (i * step k + size k) (len k)))) K.
(** lines 1212-1227; the [t] of the code is [i * step k] at key [k] *)
Fixpoint chunks_from (fuel : nat) (full : list string) (i : Z) : res (list chunk) :=
  if len d >? i * step d then
    match fuel with
    | O => Err OutOfFuel
    | S fuel' =>
        if existsb (fun k => len k - (i + 1) * step k <=? minc k) K then Ok [chunk_at full i]
        else let* r := chunks_from fuel' full (i + 1) in Ok (chunk_at full i :: r)
    end
  else Ok [].
(** lines 1184-1227 *)
Definition iterate_seq : res (list chunk) :=
  let* _ := assert_ (0 <? step d) in
  let* full := full_keys K in
  chunks_from (Z.to_nat (len d)) full 0.
End M.
