(** Model of scattering: /repo/returnn/frontend/array_.py [scatter], [scatter_argmax], [scatter_logsumexp], [scatter_logmeanexp],
    [top_k_mask], [top_p_mask], with /repo/returnn/torch/frontend/_backend.py [scatter].

    Batch and feature dims are treated independently, thus one row: the size [n] of [indices_dim] for this batch entry, and the
    padded rows of the indices and of the source. The out dim has [O] entries and is static. *)
From Coq Require Import QArith Qcanon.
From Verif Require Import Base.
From Verif Require Import ConvModel PadOpsModel.
Local Open Scope nat_scope.

(** floats without rounding, for the maximum and the minimum *)
Inductive num := NegInf | Fin (z : Z) | PosInf.
Definition num_leb (a b : num) : bool :=
  match a, b with
  | NegInf, _ | _, PosInf => true
  | Fin x, Fin y => (x <=? y)%Z
  | _, _ => false
  end.
Definition num_eqb (a b : num) : bool := num_leb a b && num_leb b a.
Definition num_max (a b : num) : num := if num_leb a b then b else a.
Definition num_min (a b : num) : num := if num_leb a b then a else b.

Section Scatter.
Context {A : Type}.

(** [scatter_reduce_] with [include_self=False] for one row: each entry is combined in the order of the source *)
Fixpoint scatter_acc (op : A -> A -> A) (acc : list (option A)) (idxs : list Z) (src : list A) : res (list (option A)) :=
  match idxs, src with
  | i :: idxs, a :: src =>
      if (i <? 0)%Z then Err IndexError
      else
        let i := Z.to_nat i in
        match nth_error acc i with
        | None => Err IndexError
        | Some o =>
            let a := match o with None => a | Some b => op b a end in
            scatter_acc op (firstn i acc ++ Some a :: skipn (S i) acc) idxs src
        end
  | _, _ => Ok acc
  end.

(** _backend.py 1111-1132: the reductions; a zero sum starts with zeros and adds ([scatter_add_]), which is the same *)
Definition backend_scatter (op : A -> A -> A) (fill : A) (O : nat) (idxs : list Z) (src : list A) : res (list A) :=
  let* acc := scatter_acc op (repeat None O) idxs src in
  Ok (map (fun o => match o with None => fill | Some a => a end) acc).

(** array_.py 848-863: the source is masked with the fill value; masking of the out dim does nothing as it is static *)
Definition scatter (op : A -> A -> A) (fill : A) (use_mask : bool) (n O : nat) (idxs : list Z) (src : list A) : res (list A) :=
  backend_scatter op fill O idxs (if use_mask then masked fill n src else src).
End Scatter.

Inductive mode := Sum | Max | Min.
(** array_.py 833-847: the default of [fill_value] for the reductions of floats, and of integers: there, [numpy.iinfo] does not
    accept a dtype of PyTorch *)
Definition default_fill (m : mode) (is_int : bool) : res num :=
  match m with
  | Sum => Ok (Fin 0)
  | Max => if is_int then Err ValueError else Ok NegInf
  | Min => if is_int then Err ValueError else Ok PosInf
  end.

(** array_.py 866-915: [scatter_argmax]; [maxint] is the largest number of the dtype of the indices *)
Definition scatter_argmax (use_mask : bool) (n O : nat) (idxs : list Z) (src : list num) (invalid : option Z) (maxint : Z)
  : res (list Z) :=
  let* out_max := scatter num_max NegInf use_mask n O idxs src in
  let* src_max := mapM (gather1 out_max) idxs in
  let m := masked false n (map (fun ab => num_eqb (fst ab) (snd ab)) (combine src_max src)) in
  let src_indices := map (fun bt => if fst bt : bool then Z.of_nat (snd bt) else maxint) (combine m (seq 0 (length m))) in
  match invalid with
  | None => Err ValueError (* [default_fill Min true] *)
  | Some invalid =>
      let* out := scatter Z.min invalid use_mask n O idxs src_indices in
      Ok (if (maxint =? invalid)%Z then out else map (fun o => if (o =? maxint)%Z then invalid else o) out)
  end.

(** Log-values are modelled by their exponentials: a number at least zero, zero for negative infinity. Then the difference of
    log-values is a quotient, and a sum is a product; [None] is not a number or infinite. *)
Definition qmax (a b : Qc) : Qc := if Qclt_le_dec a b then b else a.
Definition lsub (a b : Qc) : option Qc := if Qc_eq_dec b 0%Qc then None else Some (a / b)%Qc.
Definition oadd (a b : option Qc) : option Qc := match a, b with Some a, Some b => Some (a + b)%Qc | _, _ => None end.

(** array_.py 918-956: [scatter_logsumexp]. A fill value becomes a tensor with dims, which [torch.full] does not accept
    (_backend.py 1114-1115). *)
Definition scatter_logsumexp (use_mask : bool) (n O : nat) (idxs : list Z) (src : list Qc) (fill : option Qc) : res (list (option Qc)) :=
  let* max_x := scatter qmax 0%Qc use_mask n O idxs src in
  let* max_x_ := mapM (gather1 max_x) idxs in
  let src_ := map (fun sm => lsub (fst sm) (snd sm)) (combine src max_x_) in
  match fill with
  | Some _ => Err OtherException
  | None =>
      let* t := scatter oadd (Some 0%Qc) use_mask n O idxs src_ in
      Ok (map (fun mt => if Qc_eq_dec (fst mt) 0%Qc then Some 0%Qc
                         else match snd mt with Some t => Some (t * fst mt)%Qc | None => None end) (combine max_x t))
  end.

(** array_.py 959-985: [scatter_logmeanexp] *)
Definition scatter_logmeanexp (use_mask : bool) (n O : nat) (idxs : list Z) (src : list Qc) (fill : option Qc) : res (list (option Qc)) :=
  let ones := repeat 1%Qc (length idxs) in
  let* counts := scatter Qcplus 1%Qc use_mask n O idxs ones in
  let* y := scatter_logsumexp use_mask n O idxs src fill in
  Ok (map (fun yc => match fst yc with Some y => Some (y / snd yc)%Qc | None => None end) (combine y counts)).

(** array_.py 1202-1213: [top_k_mask]; [indices] are the indices of the [k] largest values, from [torch.topk] *)
Definition top_k_mask (n : nat) (indices : list nat) : res (list bool) :=
  backend_scatter orb false n (map Z.of_nat indices) (map (fun _ => true) indices).

(** running sums *)
Fixpoint cumsum (acc : Z) (l : list Z) : list Z := match l with [] => [] | a :: l => (acc + a)%Z :: cumsum (acc + a)%Z l end.

(** array_.py 1216-1245: [top_p_mask] with the order that [torch.sort] found: the sorted indices. The axis is static, the
    probabilities and [p] are integers, [unit] is one. *)
Definition top_p_mask (unit : Z) (probs : list Z) (p : Z) (one_more : bool) (order : list nat) : res (list bool) :=
  let* _ := assert_ ((0 <=? p)%Z && (p <=? unit)%Z) in
  let sorted := map (fun i => nth i probs 0%Z) order in
  let mask := map (fun c => (c <=? p)%Z) (cumsum 0 sorted) in
  let* mask :=
    if one_more then
      let* (_, rows) := shift_right false true 1 (Scalar true) [length mask] [mask] in Ok (nth 0 rows [])
    else Ok mask in
  backend_scatter orb false (length probs) (map Z.of_nat order) mask.
