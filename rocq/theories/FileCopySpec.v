(** What the file cache should guarantee. *)
From Verif Require Import Base FileCopyModel.

(** Nobody writes the source file in this part of the history. *)
Definition source_unchanged (es : list event) : Prop := forall c d, ~ In (WriteSrc c d) es.
(** No cleanup removes the file, its info file or the unfinished copy in this part of the history. *)
Definition no_eviction (es : list event) : Prop := ~ In EvictDst es /\ ~ In EvictInfo es /\ ~ In EvictTmp es.
(** No second request is started in this part of the history. *)
Definition no_request (es : list event) : Prop := ~ In Request es.
(** The process of the request works alone: only its own operations. *)
Definition alone (es : list event) : Prop := forall e, In e es -> exists k, e = Act k.
