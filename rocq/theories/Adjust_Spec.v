(** What refinement with GCPs means for the pixels of an image (C104). *)
From Coq Require Import String List Reals ZArith.
From Verif Require Import Py Flt Mat Rpc_Model Factory_Spec Read_Model Rcam_Model Rcam_Spec Adjust_Model.
Import ListNotations.
Open Scope R_scope.

(** The last file of a list with a name. *)
Definition last_file {F} (filename : F -> string) (files : list F) (name : string) (f : F) : Prop :=
  exists before after, files = before ++ f :: after /\ filename f = name /\ forall g, In g after -> filename g <> name.

(** The last refinement of an image, and that there is none. *)
Definition last_refined (name : string) (cs : list call) (m : refine_method) (g : list (oty_gcp R)) : Prop :=
  exists before gcps after, cs = before ++ Refine m gcps :: after /\ gcps_for gcps name g /\
  forall m' gcps' g', In (Refine m' gcps') after -> ~ gcps_for gcps' name g'.
Definition never_refined (name : string) (cs : list call) : Prop := forall m gcps g, In (Refine m gcps) cs -> ~ gcps_for gcps name g.

(** The pixels where an RPC model sees GCPs. *)
Definition position (g : oty_gcp R) : vec := let '(x, y, z) := og_xyz g in V3 x y z.
Definition seen_gcps (r : rpc) (g : list (oty_gcp R)) (jis : list (R * R)) : Prop :=
  Forall2 (fun g ji => rpc_pixel r (position g) (Num (fst ji), Num (snd ji))) g jis.

(** Sums over GCPs and pixels: of their differences in columns and rows, of the squares of differences. *)
Fixpoint sum_over (f : R * R -> R * R -> R) (g : list (oty_gcp R)) (jis : list (R * R)) : R :=
  match g, jis with a :: g', ji :: jis' => f (og_ji a) ji + sum_over f g' jis' | _, _ => 0 end.
Definition columns (a ji : R * R) : R := fst a - fst ji.
Definition rows (a ji : R * R) : R := snd a - snd ji.

(** The mean difference of GCPs from their pixels by a model. *)
Definition mean_offset (r : rpc) (g : list (oty_gcp R)) (dj di : R) : Prop :=
  exists jis, seen_gcps r g jis /\ dj * INR (List.length g) = sum_over columns g jis /\ di * INR (List.length g) = sum_over rows g jis.

(** A pixel moved by an offset, and stretched and moved; NaN stays NaN. *)
Definition moved (dj di : R) (q q' : fl * fl) : Prop :=
  match fst q with Num j => fst q' = Num (j + dj) | Nan => fst q' = Nan end /\
  match snd q with Num i => snd q' = Num (i + di) | Nan => snd q' = Nan end.
Definition stretched (a b c d : R) (q q' : fl * fl) : Prop :=
  match fst q with Num j => fst q' = Num (a * j + b) | Nan => fst q' = Nan end /\
  match snd q with Num i => snd q' = Num (c * i + d) | Nan => snd q' = Nan end.

(** The offset of an image after calls on its factory. *)
Definition offset_after (r : rpc) (name : string) (cs : list call) (dj di : R) : Prop :=
  (never_refined name cs /\ dj = 0 /\ di = 0) \/ (exists m g, last_refined name cs m g /\ mean_offset r g dj di).

(** Refinement calls whose GCPs of the image are all seen by a model, and that are all shifts. *)
Definition all_seen (name : string) (r : rpc) (cs : list call) : Prop :=
  forall m gcps g, In (Refine m gcps) cs -> gcps_for gcps name g -> exists jis, seen_gcps r g jis.
Definition all_shifts (name : string) (cs : list call) : Prop := forall m gcps g, In (Refine m gcps) cs -> gcps_for gcps name g -> m = Shift.

(** The number of GCPs that a method needs. *)
Definition enough (m : refine_method) (g : list (oty_gcp R)) : Prop := match m with Shift => (1 <= List.length g)%nat | ShiftDrift => (2 <= List.length g)%nat end.

(** The GCPs in an image's tags: pixels are as tagged, and positions are in the RPC CRS. *)
Definition tag_gcps {F D} (open_gcps : F -> res (list (rio_gcp R) * D)) (is_lla : D -> bool) (to_lla : D -> list (R * R * R) -> res (list (R * R * R))) (f : F) (g : list (oty_gcp R)) : Prop :=
  exists tags crs xyz, open_gcps f = Ok (tags, crs) /\ tags <> [] /\ (if is_lla crs then xyz = map rg_xyz tags else to_lla crs (map rg_xyz tags) = Ok xyz) /\
  map og_ji g = map (fun t => (rg_col t, rg_row t)) tags /\ map og_xyz g = xyz.

(** A line through the coordinates of pixels on an axis that has the least sum of squared differences from GCPs. *)
Definition best_fit (diff : R * R -> R * R -> R) (axis : R * R -> R) (a b : R) (g : list (oty_gcp R)) (jis : list (R * R)) : Prop :=
  let squares a b := sum_over (fun p q => diff p (a * axis q + b, a * axis q + b) ^ 2) g jis in
  forall a' b', squares a b <= squares a' b'.

(** The world CRS of cameras, when one is asked for or not. *)
Definition world_crs {C} (rpc_crs : C) (asked : option C) : C := match asked with Some c => c | None => rpc_crs end.
