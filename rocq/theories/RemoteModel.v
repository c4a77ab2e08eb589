(** The Jaeger remote sampler as a whole: its builder, the task that fetches strategies,
    the documents it reads, and the life of the handles
    (opentelemetry-sdk/src/trace/sampler/jaeger_remote/sampler.rs, remote.rs,
    sampling_strategy.rs).  The strategies themselves are in SamplerModel.v. *)
From Coq Require Import String List NArith ZArith Bool.
From Verif Require Import Str F64 BaggageModel SamplerModel JsonModel.
Import ListNotations.
Local Notation "x <- e ;; f" := (match e with Some x => f | None => None end) (at level 61, e at next level, right associativity).

(** * The document (remote.rs:1-87)
    serde's derive is modelled as in JsonModel.v; an enum is read from a string only. *)
(** SamplingStrategyType (81-86): [rename_all = "UPPERCASE"] changes the case of the
    variant names and adds no separators. *)
Definition de_type (j : json) : option bool :=
  match j with
  | JStr s => if str_eqb s (of_string "PROBABILISTIC") then Some false
              else if str_eqb s (of_string "RATELIMITING") then Some true else None
  | _ => None
  end.
Definition de_prob : json -> option f64 := obj (req "samplingRate" de_f64).
Definition de_rate : json -> option Z := obj (req "maxTracesPerSecond" de_i32).
Definition de_op : json -> option (str * f64) :=
  obj (fun l => n <- req "operation" de_str l ;; p <- req "probabilisticSampling" de_prob l ;; Some (n, p)).
(** PerOperationSamplingStrategies (31-51); the bounds are read but not used. *)
Definition de_ops : json -> option per_op :=
  obj (fun l => d <- req "defaultSamplingProbability" de_f64 l ;; _ <- req "defaultLowerBoundTracesPerSecond" de_f64 l ;;
                ops <- req "perOperationStrategies" (de_list de_op) l ;; _ <- req "defaultUpperBoundTracesPerSecond" de_f64 l ;;
                Some (mk_per_op d ops)).
(** SamplingStrategyResponse (53-71). *)
Definition de_response : json -> option response :=
  obj (fun l => _ <- req "strategyType" de_type l ;;
                p <- dft "probabilisticSampling" (de_option de_prob) None l ;;
                r <- dft "rateLimitingSampling" (de_option de_rate) None l ;;
                o <- dft "operationSampling" (de_option de_ops) None l ;;
                Some (mk_response o r p)).

(** * Fetching (sampler.rs:220-252)
    What comes of a request: nothing, or a status with a body that is a JSON document or
    not. *)
Inductive answer := NoAnswer | Answer (status : N) (body : option json).
Definition request_new_strategy (a : answer) : option response :=
  match a with
  | Answer status body => if N.eqb status 200 then j <- body ;; de_response j else None
  | NoAnswer => None
  end.

(** * Handles and the task (sampler.rs:133-218, sampling_strategy.rs:26-48)
    [Inner] is shared by the handles (clones of the sampler) and by the task, which
    captured [sampler.inner.clone()].  Its destructor sends on [shut_down]; the task stops
    when it receives that between two fetches.  Each [update] and each [should_sample]
    holds the mutex, so it is one step.  The task's waiting for its interval is a
    nondeterministic [Tick]. *)
Inductive task := Idle | Fetching | Ended.
Record rworld := mk_rw {
  rw_handles : nat; rw_owners : nat; rw_stop : bool; rw_task : task; rw_requests : nat; rw_strategy : option strategy }.
Inductive ract :=
| CloneSampler | DropSampler | Tick | Fetched (now : Z) (a : answer) | Stop | Ask (now : Z) (t : N) (name : str).

(** JaegerRemoteSampler::new (sampler.rs:139-172): one handle, and the task's own owner. *)
Definition r_start : rworld := mk_rw 1 2 false Idle 0 None.
(** Giving up an owner of [Inner]; the last one runs its destructor. *)
Definition release (w : rworld) : rworld :=
  let n := pred (rw_owners w) in
  mk_rw (rw_handles w) n (rw_stop w || Nat.eqb n 0) (rw_task w) (rw_requests w) (rw_strategy w).
Definition with_handles (n : nat) (w : rworld) : rworld :=
  mk_rw n (rw_owners w) (rw_stop w) (rw_task w) (rw_requests w) (rw_strategy w).
Definition with_task (t : task) (w : rworld) : rworld :=
  mk_rw (rw_handles w) (rw_owners w) (rw_stop w) t (rw_requests w) (rw_strategy w).
Definition with_strategy (s : option strategy) (w : rworld) : rworld :=
  mk_rw (rw_handles w) (rw_owners w) (rw_stop w) (rw_task w) (rw_requests w) s.

(** A step; [Ask] (should_sample, sampler.rs:255-279) yields what the strategy decides,
    [None] when the default sampler is asked. *)
Definition r_step (size : f64) (w : rworld) (a : ract) : option (rworld * list (option decision)) :=
  match a with
  | CloneSampler =>
    match rw_handles w with
    | O => None
    | S _ => Some (mk_rw (S (rw_handles w)) (S (rw_owners w)) (rw_stop w) (rw_task w) (rw_requests w) (rw_strategy w), [])
    end
  | DropSampler =>
    match rw_handles w with
    | O => None
    | S n => Some (release (with_handles n w), [])
    end
  | Tick =>
    match rw_task w with
    | Idle => Some (mk_rw (rw_handles w) (rw_owners w) (rw_stop w) Fetching (S (rw_requests w)) (rw_strategy w), [])
    | _ => None
    end
  | Fetched now a =>
    match rw_task w with
    | Fetching =>
      Some (with_task Idle (match request_new_strategy a with
                            | Some r => with_strategy (js_update size now (rw_strategy w) r) w
                            | None => w
                            end), [])
    | _ => None
    end
  | Stop =>
    match rw_task w with
    | Idle => if rw_stop w then Some (release (with_task Ended w), []) else None
    | _ => None
    end
  | Ask now t name =>
    match rw_handles w with
    | O => None
    | S _ => let (d, s) := js_decide (rw_strategy w) now t name in Some (with_strategy s w, [d])
    end
  end.
Fixpoint r_run (size : f64) (w : rworld) (acts : list ract) : option (rworld * list (option decision)) :=
  match acts with
  | [] => Some (w, [])
  | a :: acts =>
    match r_step size w a with
    | Some (w, o) => match r_run size w acts with Some (w, os) => Some (w, o ++ os) | None => None end
    | None => None
    end
  end.
(** The decision of the sampler with the default sampler's [dflt]. *)
Definition r_decision (dflt : decision) (d : option decision) : decision := match d with Some d => d | None => dflt end.

(** * The address asked (sampler.rs:105-130)
    A URL is what comes before its query, and the query.  [parse] is url::Url::parse; a
    fragment, which is not sent, and the conversion of the result to an http::Uri, which
    fails when it is too long, are left out. *)
Record url := mk_url { u_base : str; u_query : option str }.
Definition url_text (u : url) : str := u_base u ++ match u_query u with Some q => 63%N :: q | None => [] end.
Definition default_endpoint : url := mk_url (of_string "http://localhost:5778/sampling") None.
(** form_urlencoded::byte_serialize. *)
Definition form_byte (b : N) : str :=
  if (is_upper b || is_lower b || is_digit b || (b =? 42) || (b =? 45) || (b =? 46) || (b =? 95))%N then [b]
  else if (b =? 32)%N then [43%N] else pct_byte b.
Definition form_encode (s : str) : str := flat_map form_byte (utf8 s).
(** query_pairs_mut().append_pair: after what the query has, with a separator if that is
    not empty. *)
Definition append_pair (q : option str) (k v : str) : str :=
  match q with Some (c :: q) => (c :: q) ++ [38%N] | _ => [] end ++ form_encode k ++ 61%N :: form_encode v.
Definition get_endpoint (parse : str -> option url) (endpoint service : str) : option url :=
  match endpoint, service with
  | [], _ => None
  | _, [] => None
  | _, _ =>
    let u := match parse endpoint with Some u => u | None => default_endpoint end in
    Some (mk_url (u_base u) (Some (append_pair (u_query u) (of_string "service") service)))
  end.
