(** The atomic trackers behind sums and gauges
    (opentelemetry-sdk/src/metrics/internal/mod.rs:388-492): any number of threads
    call [add], [store], [get_value] and [get_and_reset_value] on one cell.

    Each atomic access is one step.  All of them use Ordering::Relaxed on a single
    location, for which the memory model guarantees a total modification order, so
    interleaving the accesses to that location is faithful.  [F] is the number
    type, [B] the 64-bit patterns it is stored as. *)
From Coq Require Import List Bool Arith.
From Verif Require Import ProviderModel.
Import ListNotations.

Section atomic.
Context {F B : Type}.
Variable beq : forall x y : B, {x = y} + {x <> y}.
Variable to_bits : F -> B.
Variable of_bits : B -> F.
Variable plus : F -> F -> F.
Variable zero : F.

Inductive op := Add (v : F) | Store (v : F) | Get | Reset.
(** Where a call is.  [PCas cur]: about to compare-and-exchange, having last seen
    [cur] (mod.rs:466-485).  Ghost: [seen], the number of effects before that
    observation, and [fails], the number of failed attempts. *)
Inductive pc := PStart | PCas (cur : B) (seen fails : nat) | PDone (ret : option F).
Record call := mk_call { k_op : op; k_pc : pc }.
(** Ghost: the writes to the cell, in order, with the call that made them. *)
Inductive effect := EAdd (v : F) | EStore (v : F) | EReset (old : F).
Record cell := mk_cell { bits : B; calls : list call; log : list (nat * effect); reads : list (nat * nat * F) }.
(** [new] (mod.rs:447-452). *)
Definition c_new (init : F) : cell := mk_cell (to_bits init) [] [] [].

Inductive act := Invoke (o : op) | Step (i : nat).
Definition put (i : nat) (c : call) (s : cell) (b : B) (l : list (nat * effect)) (r : list (nat * nat * F)) : cell :=
  mk_cell b (set_nth i c (calls s)) l r.
Definition step (s : cell) (a : act) : option cell :=
  match a with
  | Invoke o => Some (mk_cell (bits s) (calls s ++ [mk_call o PStart]) (log s) (reads s))
  | Step i =>
    match nth_error (calls s) i with
    | None => None
    | Some c =>
      match k_op c, k_pc c with
      (* add: first load (mod.rs:463) *)
      | Add _, PStart => Some (put i (mk_call (k_op c) (PCas (bits s) (length (log s)) 0)) s (bits s) (log s) (reads s))
      (* add: one turn of the loop (mod.rs:465-485) *)
      | Add v, PCas cur seen fails =>
        let new := to_bits (plus (of_bits cur) v) in
        if beq (bits s) cur
        then Some (put i (mk_call (k_op c) (PDone None)) s new (log s ++ [(i, EAdd v)]) (reads s))
        else Some (put i (mk_call (k_op c) (PCas (bits s) (length (log s)) (S fails))) s (bits s) (log s) (reads s))
      (* store (mod.rs:457-460) *)
      | Store v, PStart => Some (put i (mk_call (k_op c) (PDone None)) s (to_bits v) (log s ++ [(i, EStore v)]) (reads s))
      (* get_value (mod.rs:482-485) *)
      | Get, PStart => Some (put i (mk_call (k_op c) (PDone (Some (of_bits (bits s))))) s (bits s) (log s) (reads s ++ [(i, length (log s), of_bits (bits s))]))
      (* get_and_reset_value (mod.rs:487-491) *)
      | Reset, PStart => Some (put i (mk_call (k_op c) (PDone (Some (of_bits (bits s))))) s (to_bits zero) (log s ++ [(i, EReset (of_bits (bits s)))]) (reads s))
      | _, _ => None
      end
    end
  end.
Fixpoint run (s : cell) (l : list act) : option cell :=
  match l with
  | [] => Some s
  | a :: l => match step s a with Some s' => run s' l | None => None end
  end.
End atomic.
