(** What image tags and reconstructions are meant to give. *)
From Coq Require Import String Ascii List Reals ZArith.
From Verif Require Import Py Validate_Model Params_Model Fit_Model Exif_Model.
Import ListNotations.
Open Scope R_scope.

(** Dewarp data that can be used: 9 values that are not all zero, and a tagged image size. *)
Definition usable_dewarp (e : exif) (d : list R) (tw th : Z) : Prop :=
  e_dewarp e = Some d /\ List.length d = 9%nat /\ (exists r, In r d /\ r <> 0) /\ e_tag_im_size e = Some (tw, th).

(** A numeric tag that is there, with one value that is not zero. *)
Definition tagged (v : tagval) (r : R) : Prop := v = TOne r /\ r <> 0.

(** A tag that is absent, or has one value. *)
Definition single (v : tagval) : Prop := match v with TMany _ => False | _ => True end.

(** The interior parameters of an image, in the documented order of preference. *)
Inductive interior (e : exif) : int_param -> Prop :=
| I_dewarp : forall fx fy cx cy k1 k2 p1 p2 k3 tw th,
    usable_dewarp e [fx; fy; cx; cy; k1; k2; p1; p2; k3] tw th ->
    interior e (IntParam Brown (fst (e_im_size e)) (snd (e_im_size e)) [fx; fy] (Some [IZR tw; IZR th])
                  (Some (cx / IZR (Z.max tw th))) (Some (cy / IZR (Z.max tw th)))
                  [("k1", k1); ("k2", k2); ("p1", p1); ("p2", p2); ("k3", k3)]%string)
| I_focal : forall f sw sh,
    (forall d tw th, ~ usable_dewarp e d tw th) ->
    tagged (e_focal_len e) f -> e_sensor_size e = Some (sw, sh) ->
    interior e (IntParam Pinhole (fst (e_im_size e)) (snd (e_im_size e)) [f] (Some [sw; sh]) None None [])
| I_focal_35_sensor : forall f35 sw sh,
    (forall d tw th, ~ usable_dewarp e d tw th) ->
    (forall f, ~ tagged (e_focal_len e) f) -> tagged (e_focal_len_35 e) f35 -> e_sensor_size e = Some (sw, sh) ->
    interior e (IntParam Pinhole (fst (e_im_size e)) (snd (e_im_size e)) [Rmax sw sh * f35 / 36] (Some [sw; sh]) None None [])
| I_focal_35 : forall f35,
    (forall d tw th, ~ usable_dewarp e d tw th) ->
    e_sensor_size e = None -> tagged (e_focal_len_35 e) f35 ->
    interior e (IntParam Pinhole (fst (e_im_size e)) (snd (e_im_size e)) [f35 / 36] None None None []).

(** Part of a camera name: nothing, or a string that is not empty. *)
Definition given_part (p : option string) : list string := match p with Some s => if String.eqb s "" then [] else [s] | None => [] end.

(** A number as it is written in a tag: not empty, without white space or parentheses. *)
Fixpoint plain_chars (s : string) : Prop :=
  match s with
  | EmptyString => True
  | String c s' => c <> " "%char /\ c <> "("%char /\ c <> ")"%char /\ plain_chars s'
  end.
Definition plain (s : string) : Prop := s <> ""%string /\ plain_chars s.

(** A tag with 3 numbers, as GDAL formats it. *)
Definition three (a b c : string) : string := ("(" ++ a ++ ") (" ++ b ++ ") (" ++ c ++ ")")%string.

(** Decimal degrees. *)
Definition degrees (d m s : R) : R := d + m / 60 + s / 3600.

(** The latitude, longitude and altitude keys of the XMP document. *)
Definition xmp_position_keys : list string :=
  ["{http://www.dji.com/drone-dji/1.0/}GpsLatitude"; "{http://www.dji.com/drone-dji/1.0/}GpsLongtitude";
   "{http://www.dji.com/drone-dji/1.0/}AbsoluteAltitude"]%string.

(** The document has an element or attribute of a name. *)
Inductive names (k : string) : xml -> Prop :=
| N_tag : forall text attrib children, names k (Node k text attrib children)
| N_attr : forall tag text attrib children v, In (k, v) attrib -> names k (Node tag text attrib children)
| N_child : forall tag text attrib children c, In c children -> names k c -> names k (Node tag text attrib children).

(** Exactly one value is given to a name in the document. *)
Definition only_value (x : xml) (k : string) (v : option string) : Prop :=
  exists before after, xml_items x = (before ++ (k, v) :: after)%list /\
    (forall w, ~ In (k, w) before) /\ (forall w, ~ In (k, w) after).

(** A tag with 1 number, as GDAL formats it. *)
Definition one (a : string) : string := ("(" ++ a ++ ")")%string.

(** The EXIF tags of an image: its default tags, or those of the EXIF domain if it has no default tags. *)
Definition exif_tags (tags exif_ns ex : dict string) : Prop := (tags <> [] /\ ex = tags) \/ (tags = [] /\ ex = exif_ns).

(** No XMP position: there is no document, or one of the keys is not in it. *)
Definition no_xmp_position (xmp : option xml) : Prop :=
  match xmp with
  | None => True
  | Some x => exists k, In k xmp_position_keys /\ ~ names k x
  end.
