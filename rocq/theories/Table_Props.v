(** Property theorems: C103 CSV files to pixels. *)
From Coq Require Import String List Reals QArith Qreals ZArith Lra Lia.
From Verif Require Import Py Flt Mat Rot_Spec Remap_Model Frame_Model Frame_Spec Rpc_Model Validate_Model Params_Model Params_Spec Factory_Model Cam_Model Cam_Spec Proj_Spec
  Make_Model Make_Spec Make_Props Csv_Model Csv_Spec Scene_Model Scene_Spec Scene_Props Table_Model Table_Spec Table_Proof.
From Verif Require Factory_Spec Factory_Proof.
Import ListNotations.
Open Scope string_scope.
Open Scope list_scope.

Section Props.
Variable cv_surf : string -> arr fl -> fl * fl -> option fl.
Variable cast_nan : string -> fl.
Variable cv_image : string -> arr pix -> fl * fl -> option pix.
Variable convert : string -> string -> pix -> pix.
Variable cv_project cv_undistort fish_undistort : intr -> list R -> R * R -> R * R.
Variable C : Type.
Variable from_string : string -> res C.
Variable rpc_crs : C.
Variable O : Type.
Variable no_options : O.
Variable warp : C -> C -> list vec -> list vec.
Notation scene_get := (scene_get cv_surf cast_nan cv_image convert cv_project cv_undistort fish_undistort C from_string rpc_crs O no_options warp).
Notation scene_use := (scene_use cv_surf cast_nan cv_image convert C O).
Notation scene_run := (scene_run cv_surf cast_nan cv_image convert cv_project cv_undistort fish_undistort C from_string rpc_crs O no_options warp).
Variable pyfloat : string -> res Q.
Variable epsg : Z -> C.
Variables is_projected is_geographic : C -> bool.
Variable prj_of : string -> prj C.
Variable radians : Q -> Q.
Variable transform : C -> C -> Q * Q * Q -> Q * Q * Q.
Variable rpy_to_opk : C -> C -> Q * Q * Q -> Q * Q * Q -> Q * Q * Q.
Notation table_factory := (table_factory pyfloat C epsg is_projected is_geographic prj_of radians transform rpy_to_opk O).
Notation csv_init := (csv_init pyfloat C epsg is_projected is_geographic prj_of).
Notation row_shot := (row_shot pyfloat C radians transform rpy_to_opk).

(** OpenCV, as for C96. *)
Hypothesis cv_projects : forall K d xy b, In (List.length d) [4; 5; 8; 12; 14]%nat -> opencv_distorts (cv_coefs d) xy b -> num2 (cv_project K d xy) = to_pixel K b.
Hypothesis cv_undistorts : forall K d d' p, In (List.length d) [4; 5; 8; 12; 14]%nat -> In (List.length d') [4; 5; 8; 12; 14]%nat ->
  (forall k, cv_coefs d k = cv_coefs d' k) -> cv_undistort K d p = cv_undistort K d' p.

(** C103: for an image of a CSV file, the camera that is got images each point by the position and angles in the last row of that image, and the interior parameters of the camera
    in that row; whatever was asked before, and until another image of the same camera is asked for or the camera is updated.  The factory has the CRS of C55. *)
Theorem C103_pixels : forall doc crs lla_crs fields path header rows in_radians kwargs rd f world cams,
  cameras_in doc cams -> options kwargs true -> csv_init crs lla_crs fields path header rows = Ok rd -> NoDup (rd_fields rd) ->
  table_factory doc crs lla_crs fields path header rows in_radians kwargs = Ok (f, world) ->
  world = rd_crs rd /\
  forall shots l, Forall2 (row_shot (rd_crs rd) (rd_lla_crs rd) in_radians (rd_format rd) (rd_fields rd)) (if header then tl rows else rows) shots -> finals shots l ->
  forall name s c before, shot_of l name s -> camera_of cams s c -> usable c ->
  exists i, let st := scene_run before f in
  snd (scene_get name st) = Ok i /\
  forall later, kept l s i later -> keeps_distortion (before ++ later) ->
  let pixel X q := snd (scene_use i (WorldToPixel (one_point (num3 X))) (scene_run later (fst (scene_get name st)))) = Ok (VPixels [q]) in
  (forall X, beside (sh_pos s) (sh_omega s) (sh_phi s) (sh_kappa s) X -> pixel X (Nan, Nan)) /\
  (forall X q, images c (sh_pos s) (sh_omega s) (sh_phi s) (sh_kappa s) X q -> pixel X q).
Proof.
  exact (table_pixels cv_surf cast_nan cv_image convert cv_project cv_undistort fish_undistort cv_projects cv_undistorts C from_string rpc_crs O no_options warp
    pyfloat epsg is_projected is_geographic prj_of radians transform rpy_to_opk).
Qed.

(** C103: the factory is made exactly when each row is for an image. *)
Theorem C103_success : forall doc crs lla_crs fields path header rows in_radians kwargs rd cams,
  cameras_in doc cams -> csv_init crs lla_crs fields path header rows = Ok rd -> NoDup (rd_fields rd) -> (header = true -> rows <> []) ->
  ((exists f world, table_factory doc crs lla_crs fields path header rows in_radians kwargs = Ok (f, world)) <->
   Forall (fun row => exists s, row_shot (rd_crs rd) (rd_lla_crs rd) in_radians (rd_format rd) (rd_fields rd) row s) (if header then tl rows else rows)).
Proof. exact (table_success C O pyfloat epsg is_projected is_geographic prj_of radians transform rpy_to_opk). Qed.
End Props.

Print Assumptions C103_pixels.
Print Assumptions C103_success.

(** * Case *)

(** A header in mixed case, two rows of "a" in different folders, of which the second counts, and one of another image. *)
Definition csv_number (s : string) : res Q :=
  if String.eqb s "0" then Ok 0%Q else if String.eqb s "7" then Ok 7%Q else if String.eqb s "10" then Ok 10%Q else if String.eqb s "20" then Ok 20%Q else if String.eqb s "100" then Ok 100%Q else Err ValueError.
Definition csv_file : list (list string) :=
  [["FileName"; "x"; " Y"; "z"; "camera"; "omega"; "phi"; "kappa"]; ["one/a"; "7"; "7"; "7"; "pt"; "0"; "0"; "0"]; ["two/a"; "10"; "20"; "100"; "pt"; "0"; "0"; "0"]; ["b.tif"; "0"; "0"; "100"; "pt"; "0"; "0"; "0"]].
Definition csv_names : list string := ["filename"; "x"; "y"; "z"; "camera"; "omega"; "phi"; "kappa"].
Definition csv_reader : reader unit := Reader (Some tt) None csv_names true XyzOpk.
Definition a_shot (n : string) (x y z : Q) : shot := Shot n (Some "pt") (V3 (Q2R x) (Q2R y) (Q2R z)) (Q2R 0) (Q2R 0) (Q2R 0).

Lemma csv_row_shot : forall tr rpy f n sx sy sz x y z, csv_number sx = Ok x -> csv_number sy = Ok y -> csv_number sz = Ok z -> n = path_name f ->
  row_shot csv_number unit (fun q => q) tr rpy (Some tt) None true XyzOpk csv_names [f; sx; sy; sz; "pt"; "0"; "0"; "0"] (a_shot n x y z).
Proof.
  intros tr rpy f n sx sy sz x y z Hx Hy Hz ->. exists (fun t => t), (fun t => t), (fun a _ => a), (CsvExt (x, y, z) (0, 0, 0)%Q (Some "pt")).
  split; [left; reflexivity|]. assert (Ce : forall i k v, nth_error csv_names i = Some k -> nth_error [f; sx; sy; sz; "pt"; "0"; "0"; "0"] i = Some v -> cell csv_names [f; sx; sy; sz; "pt"; "0"; "0"; "0"] k v) by (intros i k v A B; exists i; auto).
  assert (Nu : forall i k v q, nth_error csv_names i = Some k -> nth_error [f; sx; sy; sz; "pt"; "0"; "0"; "0"] i = Some v -> csv_number v = Ok q -> num_cell csv_number csv_names [f; sx; sy; sz; "pt"; "0"; "0"; "0"] k q) by (intros i k v q A B E; exists v; eauto).
  split; [|repeat split]. split; [exists f; split; [exact (Ce 0%nat _ _ eq_refl eq_refl)|reflexivity]|]. split; [|split].
  - intros k Hk Hn. unfold csv_names in Hk. cbn [In] in Hk.
    destruct Hk as [<-|[<-|[<-|[<-|[<-|[<-|[<-|[<-|[]]]]]]]]]; try (exfalso; cbn in Hn; intuition discriminate);
      [exists x; exact (Nu 1%nat _ _ _ eq_refl eq_refl Hx)|exists y; exact (Nu 2%nat _ _ _ eq_refl eq_refl Hy)|exists z; exact (Nu 3%nat _ _ _ eq_refl eq_refl Hz)
      |exists 0%Q; exact (Nu 5%nat _ _ _ eq_refl eq_refl eq_refl)|exists 0%Q; exact (Nu 6%nat _ _ _ eq_refl eq_refl eq_refl)|exists 0%Q; exact (Nu 7%nat _ _ _ eq_refl eq_refl eq_refl)].
  - apply (P_xyz_opk _ _ _ _ _ true csv_names _ (x, y, z) (0, 0, 0)%Q); cbn; (split; [|split]);
      [exact (Nu 1%nat _ _ _ eq_refl eq_refl Hx)|exact (Nu 2%nat _ _ _ eq_refl eq_refl Hy)|exact (Nu 3%nat _ _ _ eq_refl eq_refl Hz)|exact (Nu 5%nat _ _ _ eq_refl eq_refl eq_refl)|exact (Nu 6%nat _ _ _ eq_refl eq_refl eq_refl)|exact (Nu 7%nat _ _ _ eq_refl eq_refl eq_refl)].
  - exact (Ce 4%nat _ _ eq_refl eq_refl).
Qed.

(** "a.jpg" is asked for, after "b.tif": its camera images the point of C96_case at the same pixel. *)
Example C103_case : exists f i, let factory := table_factory csv_number unit (fun _ => tt) (fun _ => true) (fun _ => true) (fun _ => PrjMissing) (fun q => q) (fun _ _ t => t) (fun _ _ a _ => a) unit in
  factory demo_int_doc (ACrs tt) NoCrs None None true csv_file true [] = Ok (f, Some tt) /\
  let run := scene_run (fun _ _ _ => None) (fun _ => Nan) (fun _ _ _ => None) (fun _ _ v => v) demo_project (fun _ _ p => p) (fun _ _ p => p) unit (fun _ => Ok tt) tt unit tt (fun _ _ l => l) in
  let get := scene_get (fun _ _ _ => None) (fun _ => Nan) (fun _ _ _ => None) (fun _ _ v => v) demo_project (fun _ _ p => p) (fun _ _ p => p) unit (fun _ => Ok tt) tt unit tt (fun _ _ l => l) in
  let st := run [Get "b.tif"] f in
  snd (get "a.jpg" st) = Ok i /\
  exists j k, snd (scene_use (fun _ _ _ => None) (fun _ => Nan) (fun _ _ _ => None) (fun _ _ v => v) unit unit i (WorldToPixel (one_point (num3 (V3 60 20 50)))) (fst (get "a.jpg" st))) =
    Ok (VPixels [(Num j, Num k)]) /\ j = 3%R /\ k = 1%R.
Proof.
  assert (Er : csv_init csv_number unit (fun _ => tt) (fun _ => true) (fun _ => true) (fun _ => PrjMissing) (ACrs tt) NoCrs None None true csv_file = Ok csv_reader) by reflexivity.
  assert (N : NoDup (rd_fields csv_reader)) by (cbn; repeat constructor; cbn; intuition discriminate).
  set (shots := [a_shot "a" 7 7 7; a_shot "a" 10 20 100; a_shot "b.tif" 0 0 100]).
  assert (F : Forall2 (row_shot csv_number unit (fun q => q) (fun _ _ t => t) (fun _ _ a _ => a) (rd_crs csv_reader) (rd_lla_crs csv_reader) true (rd_format csv_reader) (rd_fields csv_reader)) (tl csv_file) shots)
    by (repeat constructor; apply csv_row_shot; reflexivity).
  destruct (proj2 (C103_success unit unit csv_number (fun _ => tt) (fun _ => true) (fun _ => true) (fun _ => PrjMissing) (fun q => q) (fun _ _ t => t) (fun _ _ a _ => a)
    demo_int_doc (ACrs tt) NoCrs None None true csv_file true [] csv_reader _ demo_cameras_in Er N ltac:(discriminate))) as (f & world & Ef).
  { clear -F. induction F; constructor; eauto. }
  destruct (C103_pixels (fun _ _ _ => None) (fun _ => Nan) (fun _ _ _ => None) (fun _ _ v => v) demo_project (fun _ _ p => p) (fun _ _ p => p) unit (fun _ => Ok tt) tt unit tt (fun _ _ l => l)
    csv_number (fun _ => tt) (fun _ => true) (fun _ => true) (fun _ => PrjMissing) (fun q => q) (fun _ _ t => t) (fun _ _ a _ => a) (fun K d xy b _ => demo_projects K d xy b) (fun _ _ _ _ _ _ _ => eq_refl)
    demo_int_doc (ACrs tt) NoCrs None None true csv_file true [] csv_reader f world _ demo_cameras_in ltac:(split; [intros k []|split; [reflexivity|exists 1%R; reflexivity]]) Er N Ef) as (Ew & H).
  destruct (H shots [a_shot "a" 10 20 100; a_shot "b.tif" 0 0 100] F) with (name := "a.jpg") (s := a_shot "a" 10 20 100) (c := demo_interior) (before := [Get "b.tif"]) as (i & Eg & B).
  - split; [cbn; repeat constructor; cbn; intuition discriminate|]. intros s. split.
    + intros [<-|[<-|[]]]; [exists [a_shot "a" 7 7 7], [a_shot "b.tif" 0 0 100]|exists [a_shot "a" 7 7 7; a_shot "a" 10 20 100], []]; (split; [reflexivity|]); cbn; intuition discriminate.
    + intros (a & b & E & Nb). unfold shots in E. destruct a as [|a1 a]; cbn in E; injection E as E1 E.
      { exfalso. apply Nb. rewrite <- E1, <- E. left. reflexivity. }
      destruct a as [|a2 a]; cbn in E; injection E as E2 E; [left; exact E2|]. destruct a as [|a3 a]; cbn in E; injection E as E3 E; [right; left; exact E3|]. destruct a; discriminate E.
  - apply (same_stem _ _ _ "a"); [intros s [[<-|[<-|[]]] E]; discriminate E|apply (Factory_Spec.extension "a" "jpg"); [discriminate|discriminate|cbn; intuition discriminate]|split; [left; reflexivity|reflexivity]].
  - apply (has_one _ _ _ "pt"); [reflexivity|discriminate|left; reflexivity].
  - exact demo_usable.
  - exists f, i. cbv zeta in *. split; [rewrite Ef, Ew; reflexivity|]. split; [exact Eg|]. exists 3%R, 1%R. split; [|auto].
    destruct (B []) as (_ & B2); [split; [intros n s' []|intros xyz opk []]|intros j [X|[]]; discriminate X|].
    apply B2. exists (Intr 1 1 (3 / 2) 1), (V3 50 0 50), (3 / 2, 0)%R. unfold pixel_intr, demo_interior, a_shot. cbn [in_sensor in_w in_h in_fx in_fy in_cx in_cy kfx kfy kcx kcy sh_pos sh_omega sh_phi sh_kappa].
    split; [unfold Q2R; cbn; repeat split; lra|]. split.
    { replace (Q2R 0) with 0%R by (unfold Q2R; cbn; lra). unfold seen_at, turned, about_x, about_y, about_z, vadd. cbn. rewrite cos_0, sin_0. unfold Q2R. cbn. f_equal; lra. }
    cbn [vx vy vz]. split; [lra|]. split.
    + unfold distorts, opencv_distorts. cbn. unfold tilted. cbn [fst snd]. rewrite cos_0, sin_0. unfold Q2R. cbn. repeat split; try lra; field.
    + unfold to_pixel. cbn. f_equal; f_equal; lra.
Qed.
