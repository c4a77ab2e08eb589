(** Resources (opentelemetry-sdk/src/resource/mod.rs:40-330,
    opentelemetry-sdk/src/resource/env.rs:21-92,
    opentelemetry-sdk/src/resource/telemetry.rs:15-29).

    Attribute values are a type [V] with an embedding of strings.  [HashMap] is a finite
    map; a loop over one inserts distinct keys, so its order does not matter.  An
    environment variable is [None] when unset or not Unicode ([env::var] fails). *)
From Coq Require Import List NArith Bool String.
From stdpp Require Import base gmap.
From Verif Require Import Str.
Import ListNotations.

Section resource.
Context {V : Type} (vstr : str -> V).

Record resource := mk_res { r_attrs : gmap (list N) V; r_url : option str }.
(** [Resource::empty] (mod.rs:83-90). *)
Definition res_empty : resource := mk_res ∅ None.
(** The loop in [new] and [from_schema_url] (mod.rs:96-99, 126-129). *)
Definition of_kvs (kvs : list (str * V)) : gmap (list N) V :=
  fold_left (fun m kv => <[fst kv := snd kv]> m) kvs ∅.
(** [Resource::new] (mod.rs:95-107). *)
Definition res_new (kvs : list (str * V)) : resource := mk_res (of_kvs kvs) None.
(** [Resource::from_schema_url] (mod.rs:117-136). *)
Definition from_schema_url (kvs : list (str * V)) (url : str) : resource :=
  mk_res (of_kvs kvs) match url with [] => None | _ => Some url end.
(** The insertion loops of [from_detectors] (mod.rs:148-151) and [merge] (181-183). *)
Definition insert_all (m other : gmap (list N) V) : gmap (list N) V :=
  map_fold (fun k v m => <[k := v]> m) m other.
(** [Resource::from_detectors] (mod.rs:139-155), given what the detectors detect. *)
Definition from_detectors (ds : list resource) : resource :=
  fold_left (fun r d => mk_res (insert_all (r_attrs r) (r_attrs d)) (r_url r)) ds res_empty.
(** [is_empty() && schema_url().is_none()]. *)
Definition is_blank (r : resource) : bool :=
  match map_to_list (r_attrs r), r_url r with [], None => true | _, _ => false end.
(** [Resource::merge] (mod.rs:172-203). *)
Definition merge (a b : resource) : resource :=
  if is_blank a then b
  else if is_blank b then a
  else mk_res (insert_all (r_attrs a) (r_attrs b))
    match r_url a, r_url b with
    | Some u, Some v => if str_eqb u v then Some u else None
    | None, Some v => Some v
    | Some u, None => Some u
    | None, None => None
    end.
(** [ResourceBuilder] (mod.rs:283-325). *)
Definition with_attributes (r : resource) (kvs : list (str * V)) : resource := merge r (res_new kvs).
Definition with_detectors (r : resource) (ds : list resource) : resource := merge r (from_detectors ds).
Definition with_schema_url (r : resource) (kvs : list (str * V)) (url : str) : resource := merge (from_schema_url kvs url) r.

(** [construct_otel_resources] (env.rs:45-58). *)
Definition parse_entry (entry : str) : option (str * V) :=
  match split_once 61%N entry with
  | Some (k, v) => Some (trim k, vstr (trim v))
  | None => None
  end.
Fixpoint filter_map {A B} (f : A -> option B) (l : list A) : list B :=
  match l with
  | [] => []
  | x :: l => match f x with Some y => y :: filter_map f l | None => filter_map f l end
  end.
Definition construct_otel_resources (s : str) : resource :=
  with_attributes res_empty (filter_map parse_entry (split_terminator 44%N s)).
(** [EnvResourceDetector::detect] (env.rs:22-28). *)
Definition env_detect (attrs : option str) : resource :=
  match attrs with
  | Some (c :: s) => construct_otel_resources (c :: s)
  | _ => res_empty
  end.
(** [SdkProvidedResourceDetector::detect] (env.rs:75-92). *)
Definition SERVICE_NAME : list N := of_string "service.name".
Definition sdk_detect (service attrs : option str) : resource :=
  with_attributes res_empty
    [(SERVICE_NAME, match service with
                    | Some (c :: s) => vstr (c :: s)
                    | _ => match r_attrs (env_detect attrs) !! SERVICE_NAME with
                           | Some v => v
                           | None => vstr (of_string "unknown_service")
                           end
                    end)].
(** [TelemetryResourceDetector::detect] (telemetry.rs:17-28), with the crate's version. *)
Definition telemetry_detect (version : str) : resource :=
  with_attributes res_empty
    [(of_string "telemetry.sdk.name", vstr (of_string "opentelemetry"));
     (of_string "telemetry.sdk.language", vstr (of_string "rust"));
     (of_string "telemetry.sdk.version", vstr version)].
(** [Resource::builder] (mod.rs:62-70). *)
Definition default_resource (version : str) (service attrs : option str) : resource :=
  from_detectors [sdk_detect service attrs; telemetry_detect version; env_detect attrs].
End resource.
