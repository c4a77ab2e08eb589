(** What the theorems of LogWireProps.v refer to: the story of a log record, told by the
    API calls made for it, and what a message of an OTLP receiver tells of it. *)
From Coq Require Import String List NArith ZArith Bool.
From Verif Require Import Str ContextModel TraceModel KvModel LogModel LogProps OtlpModel ProtoSpec ProtoProps SpanWireSpec.
Import ListNotations.
Local Open Scope N_scope.

(** A log record as the application (or a bridge) makes it: the scope of the logger, the
    calls on the record, the current context and the clock when it is emitted. *)
Record lstory (V : Type) := mk_lstory {
  ls_scope : KvModel.scope; ls_calls : list (rec_op (str * lany) lany); ls_context : context span_context V; ls_now : Z }.
Arguments mk_lstory {V}. Arguments ls_scope {V}. Arguments ls_calls {V}. Arguments ls_context {V}. Arguments ls_now {V}.

(** What [emit] of the only processor is given, if anything: the model of the record and of
    the logger (opentelemetry-sdk/src/logs/record.rs:54-117, logger.rs:30-55). *)
Definition log_handed {V} (st : lstory V) : option (lrec * KvModel.scope) :=
  match emit (ls_now st) (ls_context st) [fun r => r] (fold_left rec_apply (ls_calls st) rec_new) with
  | [r] => Some (r, ls_scope st)
  | _ => None
  end.

(** * What is told *)
(** The last of the values that calls gave. *)
Definition latest {A B X} (f : rec_op A B -> option X) (l : list (rec_op A B)) : option X :=
  last (flat_map (fun o => match f o with Some x => [Some x] | None => [] end) l) None.
Definition given_attrs {A B} (o : rec_op A B) : list A := match o with AddAttr a => [a] | AddAttrs l => l | _ => [] end.
(** The names of the values are those of the protocol; lists and maps keep their order. *)
Inductive log_conveys : lany -> any -> Prop :=
| lc_int : forall z, log_conveys (LInt z) (PInt z)
| lc_double : forall f, log_conveys (LDouble f) (PDouble f)
| lc_string : forall s, log_conveys (LString s) (PString s)
| lc_bool : forall b, log_conveys (LBool b) (PBool b)
| lc_bytes : forall b, log_conveys (LBytes b) (PBytes b)
| lc_list : forall l l', Forall2 log_conveys l l' -> log_conveys (LList l) (PArray l')
| lc_map : forall l l', Forall2 (fun a b => fst b = fst a /\ log_conveys (snd a) (snd b)) l l' -> log_conveys (LMap l) (PKvlist l').
Definition log_attr_told (a : str * lany) (p : str * any) : Prop := fst p = fst a /\ log_conveys (snd a) (snd p).
Definition text_told (s : option str) (told : str) : Prop := told = match s with Some s => s | None => [] end.

Section tells.
Context {V : Type} (st : lstory V).
Definition ls_event := latest (fun o => match o with SetEvent s => Some s | _ => None end) (ls_calls st).
Definition ls_target := latest (fun o => match o with SetTarget s => Some s | _ => None end) (ls_calls st).
Definition ls_time := latest (fun o => match o with SetTime t => Some t | _ => None end) (ls_calls st).
Definition ls_observed := latest (fun o => match o with SetObserved t => Some t | _ => None end) (ls_calls st).
Definition ls_sevtext := latest (fun o => match o with SetSevText s => Some s | _ => None end) (ls_calls st).
Definition ls_sev := latest (fun o => match o with SetSev n => Some n | _ => None end) (ls_calls st).
Definition ls_body := latest (fun o => match o with SetBody b => Some b | _ => None end) (ls_calls st).
Definition ls_attrs := flat_map given_attrs (ls_calls st).
(** The trace the record belongs to: that given, or that of the active span. *)
Definition ls_trace : option (N * N * option N) :=
  match latest (fun o => match o with SetTrace t s f => Some (t, s, f) | _ => None end) (ls_calls st) with
  | Some t => Some t
  | None => option_map (fun sc => (sc_trace sc, sc_span sc, Some (sc_flags sc))) (cx_span (ls_context st))
  end.

(** The message [p] tells the story. *)
Definition log_tells (p : plog) : Prop :=
  match ls_time with Some t => time_told t (q_time p) | None => q_time p = 0%Z end /\
  time_told match ls_observed with Some t => t | None => ls_now st end (q_observed p) /\
  Forall2 log_attr_told ls_attrs (q_attrs p) /\
  text_told ls_event (q_event p) /\
  q_sev p = match ls_sev with Some n => Z.of_N n | None => 0%Z end /\
  text_told ls_sevtext (q_sevtext p) /\
  match ls_body, q_body p with Some b, Some b' => log_conveys b b' | None, None => True | _, _ => False end /\
  match ls_trace with
  | Some (t, s, f) => id_told 16 t (q_trace p) /\ id_told 8 s (q_span p) /\ q_flags p = match f with Some f => f | None => 0 end
  | None => q_trace p = [] /\ q_span p = [] /\ q_flags p = 0
  end.

(** The types of the API. *)
Definition typed_lstory : Prop :=
  typed_opt ls_event /\ typed_opt ls_target /\ typed_opt ls_sevtext /\
  match ls_sev with Some n => n < 25 | None => True end /\
  match ls_body with Some b => typed_lany b | None => True end /\
  Forall (fun kv => text (fst kv) /\ typed_lany (snd kv)) ls_attrs /\
  match ls_trace with
  | Some (t, s, f) => t < 2 ^ 128 /\ s < 2 ^ 64 /\ match f with Some f => f < 256 | None => True end
  | None => True
  end /\ typed_scope (ls_scope st).
End tells.
