(** Specification vocabulary for the samplers (C22-C24, C70). *)
From Coq Require Import List NArith ZArith Bool Reals.
From Flocq Require Import Core.
From Verif Require Import Str ContextModel TraceModel Carrier F64 SamplerModel.
Import ListNotations.
Local Open Scope Z_scope.

(** Samplers without user code. *)
Fixpoint builtin {V A : Type} (s : sampler V A) : Prop :=
  match s with
  | Custom _ => False
  | ParentBased d => builtin d
  | _ => True
  end.

(** All that may matter of the parent: its span context, if it has one. *)
Definition parent_sc {V : Type} (p : option (sctx V)) : option span_context :=
  match p with Some cx => cx_span cx | None => None end.

(** The share of low words sampled at ratio [p < 1]. *)
Definition ratio_bound (p : f64) : Z := Zfloor (Rmax 0 (f64R p) * bpow radix2 63).

(** The token bucket in integers: [refill] whole seconds, then admit. *)
Record tokens := mk_tokens { tk_rate : Z; tk_available : Z; tk_size : Z; tk_last : Z }.
Definition tk_poll (t : tokens) (now : Z) : bool * tokens :=
  if 1 <=? tk_available t then (true, mk_tokens (tk_rate t) (tk_available t - 1) (tk_size t) (tk_last t))
  else if now <? tk_last t then (true, t)
  else
    let a := Z.min ((now - tk_last t) / 10 ^ 9 * tk_rate t + tk_available t) (tk_size t) in
    if 1 <=? a then (true, mk_tokens (tk_rate t) (a - 1) (tk_size t) now)
    else (false, mk_tokens (tk_rate t) a (tk_size t) now).

(** Polling a limiter at the given times: how many are admitted. *)
Fixpoint admitted (b : bucket) (times : list Z) : Z * bucket :=
  match times with
  | [] => (0, b)
  | t :: r => let (ok, b') := lb_check b t in
              let (n, b'') := admitted b' r in
              ((if ok then 1 else 0) + n, b'')
  end.

(** Asking the remote sampler about spans one after the other: at a time, with
    a trace id and a name. *)
Fixpoint remote_decisions (s : option strategy) (asked : list (Z * (N * str))) : list (option decision) :=
  match asked with
  | [] => []
  | (now, (t, name)) :: r => let (d, s') := js_decide s now t name in d :: remote_decisions s' r
  end.

(** Times that never go back, from [t0]. *)
Fixpoint forward (t0 : Z) (times : list Z) : Prop :=
  match times with
  | [] => True
  | t :: r => t0 <= t /\ forward t r
  end.
(** Less than a second between consecutive times. *)
Fixpoint quick (t0 : Z) (times : list Z) : Prop :=
  match times with
  | [] => True
  | t :: r => t0 <= t < t0 + 10 ^ 9 /\ quick t r
  end.
