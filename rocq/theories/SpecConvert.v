(** What a converted edge file says. *)
From Verif Require Export SpecSingle ModelConvert.
Open Scope Z_scope.
Open Scope list_scope.

(** Reading an edge file back, as the evaluators and data loaders do (19 classes). *)
Definition reads (p : picture) (edges : stack) : Prop :=
  match p with Colour im => decode_png im 19 = edges | Gray im => decode_tif im 19 = Ok edges end.
(** The image worked on when the resampling comes first: resampled if the scale is below 1. *)
Definition worked_on (scale : Q) (im im' : image Z) : Prop :=
  ((scale < 1)%Q -> exists h w, scaled_size (ht im) scale h /\ scaled_size (wd im) scale w /\ resampled 0 im h w im')
  /\ ((1 <= scale)%Q -> im' = im).
(** A Cityscapes label image with its optional instance image. *)
Definition label_image (im : image Z) : Prop := wf im /\ (0 < wd im)%nat.
Definition instances_of (im : image Z) (inst : option (image Z)) : Prop :=
  match inst with
  | None => True
  | Some i => wf i /\ ht i = ht im /\ wd i = wd im /\
      forall y x, inb (ht i) (wd i) y x = true -> 0 <= px 0 i y x < 100000
  end.
(** What the edge file of each kind holds, for a label image and its optional instances. *)
Definition holds_edges (v : variant) (radius : Z) (img : image Z) (inst : option (image Z)) (p : picture) : Prop :=
  exists t, reads p t /\ List.length (chans t) = 19%nat /\ forall category, 1 <= category <= 19 ->
    let c := channel t (category - 1) in
    match v with
    (* the edges at full size *)
    | Train | RawV => otf_edge category inst radius img = Ok c
    (* thinned at full size *)
    | ThinV => exists e r, otf_edge category inst 1 img = Ok e /\ binary_thin None (Raw e) = Some r /\
        forall y x, inb (ht img) (wd img) y x = true -> px 0 c y x = b2z (px false (as_bool r) y x)
    (* every second pixel of the edges at full size *)
    | HalfRaw => exists e, otf_edge category inst radius img = Ok e /\ scaled_size (ht img) (1 # 2) (s_h t) /\ scaled_size (wd img) (1 # 2) (s_w t) /\
        forall y x, inb (s_h t) (s_w t) y x = true ->
          px 0 c y x = px 0 e (Z.min (y * Z.of_nat (ht img) / Z.of_nat (s_h t)) (Z.of_nat (ht img) - 1)) (Z.min (x * Z.of_nat (wd img) / Z.of_nat (s_w t)) (Z.of_nat (wd img) - 1))
    (* the thinned edges of the half size images *)
    | HalfThin => exists img' inst' e r, worked_on (1 # 2) img img' /\
        match inst, inst' with None, None => True | Some i, Some i' => worked_on (1 # 2) i i' | _, _ => False end /\
        otf_edge category inst' 1 img' = Ok e /\ binary_thin None (Raw e) = Some r /\
        forall y x, inb (ht img') (wd img') y x = true -> px 0 c y x = b2z (px false (as_bool r) y x)
    end.
(** A png edge file is a colour image, a tif edge file a single channel image. *)
Definition picture_type (ext : text) (p : picture) : Prop := match p with Colour _ => ext = lit "png" | Gray _ => ext = lit "tif" end.
(** Names of the edge files, without extension. *)
Definition kind_name (v : variant) (inst : bool) : text :=
  match v, inst with
  | Train, false => lit "_gtProc_edge" | Train, true => lit "_gtProc_isedge"
  | RawV, false => lit "_gtProc_raw_edge" | RawV, true => lit "_gtProc_raw_isedge"
  | ThinV, false => lit "_gtProc_thin_edge" | ThinV, true => lit "_gtProc_thin_isedge"
  | HalfRaw, false => lit "_gtProc_half_raw_edge" | HalfRaw, true => lit "_gtProc_half_raw_isedge"
  | HalfThin, false => lit "_gtProc_half_thin_edge" | HalfThin, true => lit "_gtProc_half_thin_isedge"
  end.
(** The files below the Cityscapes directory [root]. *)
Definition label_file (root split n : text) : text := root ++ lit "/gtFine/" ++ split ++ lit "/" ++ n ++ lit "_gtFine_labelIds.png".
Definition instance_file (root split n : text) : text := root ++ lit "/gtFine/" ++ split ++ lit "/" ++ n ++ lit "_gtFine_instanceIds.png".
Definition edge_file (root proc split n : text) (v : variant) (inst : bool) (ext : text) : text :=
  root ++ lit "/" ++ proc ++ lit "/" ++ split ++ lit "/" ++ n ++ kind_name v inst ++ lit "." ++ ext.
(** A label image is on the disk, with its instances if they are wanted, large enough for the conversion. *)
Definition labelled (d : disk) (root split n : text) (inst half : bool) (img : image Z) (insts : option (image Z)) : Prop :=
  d (label_file root split n) = Some (Gray img) /\ label_image img /\ ((if half then 68 else 34) <= ht img)%nat /\ instances_of img insts /\
  match insts with Some i => inst = true /\ d (instance_file root split n) = Some (Gray i) | None => inst = false end.
(** The radius asked for a kind of file. *)
Definition asked_radius (r : radii) (v : variant) : Z :=
  match v with
  | Train => r_train r
  | RawV => r_raw r | HalfRaw => r_raw r
  | ThinV => r_thin r | HalfThin => r_thin r
  end.
