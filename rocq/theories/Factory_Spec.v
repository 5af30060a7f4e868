(** Vocabulary for the factory properties. *)
From Coq Require Import List String Ascii.
From Verif Require Import Py Factory_Model.
Import ListNotations.
Open Scope string_scope.

(** The last part of a path. *)
Fixpoint has_char (c : Ascii.ascii) (s : string) : Prop :=
  match s with EmptyString => False | String c' s' => c = c' \/ has_char c s' end.
Inductive last_part : string -> string -> Prop :=
| bare_name : forall n, ~ has_char "/" n -> last_part n n
| in_folder : forall d n, ~ has_char "/" n -> last_part (d ++ "/" ++ n) n.

(** A file name without its extension: a name that starts with its only dot, or ends with a dot, has none. *)
Inductive without_extension : string -> string -> Prop :=
| no_dot : forall n, ~ has_char "." n -> without_extension n n
| extension : forall s e, s <> "" -> e <> "" -> ~ has_char "." e -> without_extension (s ++ "." ++ e) s
| hidden : forall e, ~ has_char "." e -> without_extension ("." ++ e) ("." ++ e)
| last_dot : forall s, without_extension (s ++ ".") (s ++ ".").

(** The exterior parameters stored for an image: under its name, or else under its name without extension. *)
Inductive found {V} (d : dict V) (name : string) (v : V) : Prop :=
| by_name : dget name d = Some v -> found d name v
| by_stem : dget name d = None -> dget (stem name) d = Some v -> found d name v.

(** The interior parameters that go with a camera ID: those of the ID; without an ID, the only ones there are. *)
Inductive interior {P} (ints : dict P) : option string -> P -> Prop :=
| with_id : forall s p, s <> "" -> dget s ints = Some p -> interior ints (Some s) p
| only_one : forall cam id p, (cam = None \/ cam = Some "") -> ints = [(id, p)] -> interior ints cam p.

(** GCPs to refine an image with: a non-empty list, looked up like parameters. *)
Definition gcps_for {G} (gcps : dict (list G)) (name : string) (g : list G) : Prop := found gcps name g /\ g <> [].
