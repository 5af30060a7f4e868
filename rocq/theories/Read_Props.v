(** Property theorems: C50 reading parameters from images with threads, C66 ground control points of images. *)
From Coq Require Import String List Arith ZArith Bool.
From Verif Require Import Py Read_Model Read_Spec Read_Proof.
Import ListNotations.
Open Scope string_scope.

(** C50: RPC parameters.  Whatever the schedule, the outcome is that of reading the files one after the other; file-not-found
    and parameter errors are raised as they are and others as RuntimeError. *)
Theorem C50_rpc : forall F P (filename : F -> string) (open_im : F -> res (Z * Z * option P)) files evs out,
  read_im_rpc_param filename open_im files evs = Some out ->
  reads_as (fun f => match open_im f with
                     | Ok (size, Some rpc) => Ok (filename f, (size, rpc))
                     | Ok (_, None) => Err ParamError
                     | Err e => Err e
                     end)
           (fun e => match e with FileNotFoundError => FileNotFoundError | ParamError => ParamError | _ => RuntimeError end)
           files out.
Proof. exact rpc_reads. Qed.
Print Assumptions C50_rpc.

(** C50: GCPs, for any reading of a file. *)
Theorem C50_gcps : forall F N C (filename : F -> string) (open_gcps : F -> res (list (rio_gcp N) * C)) is_lla to_lla files evs out,
  read_im_gcps filename open_gcps is_lla to_lla files evs = Some out ->
  reads_as (im_gcp_task filename open_gcps is_lla to_lla)
           (fun e => match e with FileNotFoundError => FileNotFoundError | ParamError => ParamError | _ => RuntimeError end)
           files out.
Proof. exact gcps_reads. Qed.
Print Assumptions C50_gcps.

(** C50: Exif tags; every error but file-not-found is a RuntimeError. *)
Theorem C50_exif : forall F E (filename : F -> string) (exif : F -> res E) files evs out,
  read_exif filename exif files evs = Some out ->
  reads_as (fun f => match exif f with Ok e => Ok (filename f, e) | Err e => Err e end)
           (fun e => match e with FileNotFoundError => FileNotFoundError | _ => RuntimeError end)
           files out.
Proof. exact exif_reads. Qed.
Print Assumptions C50_exif.

(** C50: any two schedules have the same outcome. *)
Theorem C50_schedules : forall F V (task : F -> res (string * V)) reraised files evs evs' out out',
  p_out (prun task reraised files evs) = Some out -> p_out (prun task reraised files evs') = Some out' -> out = out'.
Proof. exact pool_schedules. Qed.
Print Assumptions C50_schedules.

(** C50: reading ends, in whatever order the files are finished. *)
Theorem C50_ends : forall F V (task : F -> res (string * V)) reraised files evs,
  complete files evs -> exists out, p_out (prun task reraised files evs) = Some out.
Proof. exact pool_ends. Qed.
Print Assumptions C50_ends.

Definition example_open (f : string) : res (Z * Z * option nat) :=
  if String.eqb f "a/x.tif" then Ok (1%Z, 1%Z, Some 1)
  else if String.eqb f "b/x.tif" then Ok (2%Z, 2%Z, Some 2)
  else if String.eqb f "y.tif" then Ok (3%Z, 3%Z, Some 3)
  else if String.eqb f "no_rpc.tif" then Ok (4%Z, 4%Z, None) else Err OSError.
Definition example_name (f : string) : string := if String.eqb f "y.tif" then "y.tif" else "x.tif".

(** Files finished in reverse order, with the collecting loop blocked on the first one meanwhile. *)
Example C50_case :
  read_im_rpc_param example_name example_open ["a/x.tif"; "y.tif"; "b/x.tif"]
    ([Collect; Finish 2; Finish 1; Collect; Finish 0] ++ repeat Collect 4) =
    Some (Ok [("x.tif", (2%Z, 2%Z, 2)); ("y.tif", (3%Z, 3%Z, 3))]) /\
  read_im_rpc_param example_name example_open ["a/x.tif"; "missing"; "no_rpc.tif"]
    ([Finish 2; Finish 1; Finish 0] ++ repeat Collect 4) = Some (Err RuntimeError) /\
  complete ["a/x.tif"; "y.tif"; "b/x.tif"] ([Collect; Finish 2; Finish 1; Collect; Finish 0] ++ repeat Collect 4).
Proof.
  split; [reflexivity|]. split; [reflexivity|]. eexists. split; [reflexivity|].
  intros [|[|[|i]]] H; cbn in *; [tauto|tauto|tauto|]. exfalso. do 3 apply Nat.succ_lt_mono in H. inversion H.
Qed.

(** C66: the GCPs of an image keep their order, column and row, ID and info; their positions are those of the image when it
    is in the standard geographic CRS, and the transformed ones otherwise. *)
Theorem C66_gcps : forall F N C (filename : F -> string) (open_gcps : F -> res (list (rio_gcp N) * C)) is_lla to_lla f name gs,
  (forall c l l', to_lla c l = Ok l' -> List.length l' = List.length l) ->
  im_gcp_task filename open_gcps is_lla to_lla f = Ok (name, gs) ->
  exists gcps crs xyz, open_gcps f = Ok (gcps, crs) /\ gcps <> [] /\ name = filename f /\
    (is_lla crs = true -> xyz = map rg_xyz gcps) /\ (is_lla crs = false -> to_lla crs (map rg_xyz gcps) = Ok xyz) /\
    map og_ji gs = map (fun g => (rg_col g, rg_row g)) gcps /\ map og_xyz gs = xyz /\
    map og_id gs = map rg_id gcps /\ map og_info gs = map rg_info gcps.
Proof. exact im_gcp_values. Qed.
Print Assumptions C66_gcps.

(** C66: an image without GCPs is an error. *)
Theorem C66_none : forall F N C (filename : F -> string) (open_gcps : F -> res (list (rio_gcp N) * C)) is_lla to_lla f crs,
  open_gcps f = Ok ([], crs) -> im_gcp_task filename open_gcps is_lla to_lla f = Err ParamError.
Proof. exact im_gcp_none. Qed.
Print Assumptions C66_none.

Example C66_case :
  im_gcp_task (fun f => f) (fun _ : string => Ok ([RioGcp 5 6 (1, 2, 3) "g0" "a"; RioGcp 7 8 (4, 5, 6) "g1" ""], true)) (fun c => c)
    (fun _ l => Ok l) "x.tif" = Ok ("x.tif", [OtyGcp (5, 6) (1, 2, 3) "g0" "a"; OtyGcp (7, 8) (4, 5, 6) "g1" ""]).
Proof. reflexivity. Qed.
