(** The files of a conversion of Cityscapes and their directories. *)
From Verif Require Export SpecDirs PropertiesPrepare.
Open Scope Z_scope.
Open Scope list_scope.

(** The files a conversion of Cityscapes writes. *)
Definition city_file (root proc ext : text) (inst half : bool) (ptrain pval train val : list text) (f : text) : Prop :=
  (exists n, In n ptrain /\ f = trainid_file root proc (lit "train") n) \/
  (exists n, In n pval /\ f = trainid_file root proc (lit "val") n) \/
  (exists n, In n train /\ f = edge_file root proc (lit "train") n Train inst ext) \/
  (exists n v, In n val /\ In v (kinds half) /\ f = edge_file root proc (lit "val") n v inst ext).
(** They can be written: nothing but directories is in their way, and none is needed as a directory. *)
Definition city_room (t : tree) (root proc : text) (target : text -> Prop) : Prop :=
  (forall f, target f -> no_dots f /\ free t f /\ forall g, target g -> ~ above g f) /\
  no_dots (root ++ lit "/" ++ proc ++ lit "/") /\
  forall p, p = root ++ lit "/" ++ proc \/ above p (root ++ lit "/" ++ proc) -> t p = None \/ t p = Some Dir.
