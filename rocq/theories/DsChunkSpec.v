(** Vocabulary for C40. *)
From Coq Require Import String.
From Verif Require Import Base DsChunkModel.
Local Open Scope nat_scope. Local Open Scope list_scope. Local Open Scope Z_scope.

(** The frame [t] of the stream [k] is in the chunk [c]. *)
Definition in_chunk (c : chunk) (k : string) (t : Z) : Prop := exists s e, In (k, (s, e)) c /\ s <= t < e.
