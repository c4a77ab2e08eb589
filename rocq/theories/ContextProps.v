(** Properties C01-C04: the current context and context values. *)
From Coq Require Import List NArith Bool.
From Verif Require Import ContextModel ContextSpec ContextProofs.
Import ListNotations.

(** C01.  However attaches and guard drops are interleaved on a thread (in any
    order, including out-of-order drops), no operation panics and
    [Context::current] is the context of the most recently created guard that
    is still alive, or the root context.  (Up to 65534 attaches; C02 treats the
    rest.) *)
Theorem C01_current_follows_live_guards :
  forall (A : Type) (base : A) (ops : list (op A)),
    (N.of_nat (attaches ops) <= 65534)%N ->
    exists t, th_run (th_init base) ops = Some t /\
              th_current t = w_current base (w_run w_init ops).
Proof. exact (fun A => @run_current A). Qed.
Print Assumptions C01_current_follows_live_guards.

(** out-of-order drops: 1,2,3 attached, 2 dropped, then 3: 1 is current again *)
Example C01_example :
  let ops := [Attach 1; Attach 2; Attach 3; DropGuard 1; DropGuard 2] in
  (N.of_nat (attaches ops) <= 65534)%N /\ w_current 0 (w_run w_init ops) = 1 /\
  option_map th_current (th_run (th_init 0) ops) = Some 1.
Proof. vm_compute. repeat split; discriminate. Qed.

(** C02.  With no bound on the number of operations: the run never panics and
    the current context is that of the youngest live accepted guard. *)
Theorem C02_refines_limited_stack :
  forall (A : Type) (base : A) (ops : list (op A)),
    exists t, th_run (th_init base) ops = Some t /\
              th_current t = lw_current base (lw_run lw_init ops).
Proof. exact (fun A => @run_refines A). Qed.
Print Assumptions C02_refines_limited_stack.

(** C02.  At the nesting limit an attach changes nothing, and dropping its
    guard, at any later time and whatever happened in between, changes nothing
    either. *)
Theorem C02_overflow_guard_is_inert :
  forall (A : Type) (base : A) (ops : list (op A)) (t : thread A) (c : A),
    th_run (th_init base) ops = Some t ->
    (65534 <= lw_depth (lw_run lw_init ops))%N ->
    exists t1, th_step t (Attach c) = Some t1 /\ th_stack t1 = th_stack t /\
      forall rest, exists t2 t3,
        th_run t1 rest = Some t2 /\
        th_step t2 (DropGuard (length (th_guards t))) = Some t3 /\
        th_stack t3 = th_stack t2.
Proof. exact (fun A => @overflow_inert A). Qed.
Print Assumptions C02_overflow_guard_is_inert.

(** the limit is reached by 65534 nested attaches *)
Example C02_limit_reachable :
  (65534 <= lw_depth (lw_run lw_init (repeat (Attach tt) (N.to_nat 65534))))%N.
Proof. rewrite depth_repeat; rewrite N2Nat.id; discriminate. Qed.

(** C02.  Two live guards never share a position, so a drop never removes a
    context attached by another guard. *)
Theorem C02_live_positions_distinct :
  forall (A : Type) (base : A) (ops : list (op A)) (t : thread A) g1 g2 id,
    th_run (th_init base) ops = Some t ->
    nth_error (th_guards t) g1 = Some (Some id) ->
    nth_error (th_guards t) g2 = Some (Some id) ->
    id <> 65535%N -> g1 = g2.
Proof. exact (fun A => @live_ids_distinct A). Qed.
Print Assumptions C02_live_positions_distinct.

(** C03.  Polling a future wrapped by [with_context], on a thread in any
    reachable state: whatever the inner poll attaches and drops (its own guards
    only, leaving none alive), the poll does not panic, the context current
    before it is current after it, and the inner poll starts under the stored
    context (unless the thread is at the nesting limit). *)
Theorem C03_poll_restores_current :
  forall (A : Type) (base : A) (ops : list (op A)) (t : thread A) (stored : A) (inner : list (op A)),
    th_run (th_init base) ops = Some t ->
    Forall (fun o => match o with DropGuard g => attaches ops < g | Attach _ => True end) inner ->
    w_live (w_run (mk_world (S (attaches ops)) []) inner) = [] ->
    exists seen t',
      wc_poll t stored inner = Some (seen, t') /\
      th_current t' = th_current t /\
      ((lw_depth (lw_run lw_init ops) < 65534)%N -> seen = stored).
Proof. exact (fun A => @wc_poll_restores A). Qed.
Print Assumptions C03_poll_restores_current.

(** C03.  The same for arbitrary inner operations (guards left alive, foreign
    guards dropped): the poll has exactly the effect of attaching the stored
    context, the inner operations, and dropping that guard. *)
Theorem C03_poll_is_attach_inner_drop :
  forall (A : Type) (base : A) (ops : list (op A)) (t : thread A) (stored : A) (inner : list (op A)),
    th_run (th_init base) ops = Some t ->
    exists seen t',
      wc_poll t stored inner = Some (seen, t') /\
      seen = lw_current base (lw_run lw_init (ops ++ [Attach stored])) /\
      th_current t' =
        lw_current base (lw_run lw_init
          (ops ++ [Attach stored] ++ inner ++ [DropGuard (attaches ops)])).
Proof. exact (fun A => @wc_poll_general A). Qed.
Print Assumptions C03_poll_is_attach_inner_drop.

Example C03_example :
  let ops := [Attach 1; Attach 2; DropGuard 0] in
  let inner := [Attach 8; Attach 9; DropGuard 3; DropGuard 4] in
  option_map th_current (th_run (th_init 0) ops) = Some 2 /\
  w_live (w_run (mk_world (S (attaches ops)) []) inner) = [] /\
  match th_run (th_init 0) ops with
  | Some t => option_map (fun r => (fst r, th_current (snd r))) (wc_poll t 7 inner) = Some (7, 2)
  | None => False
  end.
Proof. vm_compute. repeat split. Qed.

(** C04.  Along any chain of derivations from any context, [get::<T>] returns
    the last value stored for T in the chain, or what the original held. *)
Theorem C04_value_is_last_stored :
  forall (S V : Type) (c : context S V) (ds : list (deriv S V)) (t : type_id),
    cx_get t (fold_left apply_deriv ds c) = last_of (value_of t) ds (cx_get t c).
Proof. exact (fun S V => @chain_value S V). Qed.
Print Assumptions C04_value_is_last_stored.

Theorem C04_span_is_last_set :
  forall (S V : Type) (c : context S V) (ds : list (deriv S V)),
    cx_span (fold_left apply_deriv ds c) = last_of span_of ds (cx_span c).
Proof. exact (fun S V => @chain_span S V). Qed.
Print Assumptions C04_span_is_last_set.

Theorem C04_suppression_is_sticky :
  forall (S V : Type) (c : context S V) (ds : list (deriv S V)),
    cx_is_suppressed (fold_left apply_deriv ds c) =
    existsb is_suppress ds || cx_is_suppressed c.
Proof. exact (fun S V => @chain_suppress S V). Qed.
Print Assumptions C04_suppression_is_sticky.

(** A new context holds nothing. *)
Theorem C04_new_is_empty :
  forall (S V : Type) (t : type_id),
    cx_get t (@cx_new S V) = None /\ cx_span (@cx_new S V) = None /\
    cx_is_suppressed (@cx_new S V) = false.
Proof. exact (fun S V t => conj eq_refl (conj eq_refl eq_refl)). Qed.
Print Assumptions C04_new_is_empty.

Example C04_example :
  let c := fold_left apply_deriv
             [DValue 1%N 10; DValue 2%N 20; DSpan true; DValue 1%N 11; DSuppress; DSpan false] cx_new in
  cx_get 1%N c = Some 11 /\ cx_get 2%N c = Some 20 /\ cx_get 3%N c = None /\
  cx_span c = Some false /\ cx_is_suppressed c = true.
Proof. vm_compute. repeat split. Qed.
