(** Non-maximum suppression (pyEdgeEval/_lib/src/benms.cc, pyEdgeEval/_lib/nms.pyx) once more, with the
    doubles of the code: every operation is rounded to binary64 ([rnd], ModelFloat.v).

    Simplifications: numbers are binary64 numbers without an upper bound on the exponent (no infinities,
    no NaN); the libm functions [cosf], [sinf] are parameters about which nothing is assumed. *)
From Verif Require Export ModelNMS ModelCSA64.
From Coq Require Export Reals.
From Flocq Require Export Core.
Open Scope R_scope.

(** Matrix.cc:473-484, as [mget] of ModelNMS.v. *)
Definition fmget (im : image R) (row col : Z) : res R :=
  if inb (ht im) (wd im) row col then Ok (px 0 im row col) else Err Terminate.

(** The literal [1.001]. *)
Definition lit1001 : R := rnd (1001 / 1000).
(** benms.cc:15-16. *)
Definition fclamp (n : Z) (v : R) : R :=
  let top := fsub (IZR n) lit1001 in
  if Rltb v 0 then 0 else if Rltb top v then top else v.

(** benms.cc:12-26 [interp]; [int(v)] is [Ztrunc v]. *)
Definition finterp (I : image R) (h w : Z) (x y : R) : res R :=
  let x := fclamp w x in
  let y := fclamp h y in
  let x0 := Ztrunc x in let y0 := Ztrunc y in
  let x1 := (x0 + 1)%Z in let y1 := (y0 + 1)%Z in
  let dx0 := fsub x (IZR x0) in let dy0 := fsub y (IZR y0) in
  let dx1 := fsub 1 dx0 in let dy1 := fsub 1 dy0 in
  bind (fmget I y0 x0) (fun a => bind (fmget I y0 x1) (fun b =>
  bind (fmget I y1 x0) (fun c => bind (fmget I y1 x1) (fun d =>
    Ok (fadd (fadd (fadd (fmul (fmul a dx1) dy1) (fmul (fmul b dx0) dy1)) (fmul (fmul c dx1) dy0)) (fmul (fmul d dx0) dy0)))))).

(** benms.cc:53-62. *)
Fixpoint fsurvives (edge : image R) (h w : Z) (e : R) (x y : Z) (co si : R) (ds : list Z) : res bool :=
  match ds with
  | [] => Ok true
  | d :: ds =>
    bind (finterp edge h w (fadd (IZR x) (fmul (IZR d) co)) (fadd (IZR y) (fmul (IZR d) si))) (fun e0 =>
      if Rltb e e0 then Ok false else fsurvives edge h w e x y co si ds)
  end.

(** benms.cc:45-63. *)
Definition fnms_pixel (cosf sinf : R -> R) (edge ori : image R) (r : Z) (m : R) (y x : Z) : res R :=
  let e := px 0 edge y x in
  if Req_EM_T e 0 then Ok e
  else
    let o := px 0 ori y x in
    bind (fsurvives edge (Z.of_nat (ht edge)) (Z.of_nat (wd edge)) (fmul e m) x y (cosf o) (sinf o) (offsets r))
         (fun keep => Ok (if keep then e else 0)).

(** [out(y, x) *= q]. *)
Definition fscale_at (out : image R) (w : Z * Z * R) : res (image R) :=
  let '(y, x, q) := w in
  if inb (ht out) (wd out) y x
  then Ok (tab (ht out) (wd out) (fun y' x' =>
             if ((y' =? y) && (x' =? x))%Z then fmul (px 0 out y' x') q else px 0 out y' x'))
  else Err Terminate.
Fixpoint fscale_all (out : image R) (ws : list (Z * Z * R)) : res (image R) :=
  match ws with [] => Ok out | w :: ws => bind (fscale_at out w) (fun out => fscale_all out ws) end.

(** [double(k) / s]. *)
Definition fratioZ (k s : Z) : R := fdiv (IZR k) (IZR s).
(** benms.cc:65-67: the width of the border. *)
Definition fborder (h w : nat) (s : Z) : Z :=
  let s := if (Z.of_nat w / 2 <? s)%Z then (Z.of_nat w / 2)%Z else s in
  if (Z.of_nat h / 2 <? s)%Z then (Z.of_nat h / 2)%Z else s.
(** benms.cc:68-78: the two border loops as a list of multiplications. *)
Definition fborder_writes (h w : nat) (s : Z) : list (Z * Z * R) :=
  let zh := Z.of_nat h in let zw := Z.of_nat w in let s := fborder h w s in
  flat_map (fun x => flat_map (fun y => [(y, x, fratioZ x s); (y, zw - 1 - x, fratioZ x s)]%Z) (zseq h)) (zseq (Z.to_nat s))
  ++ flat_map (fun x => flat_map (fun y => [(y, x, fratioZ y s); (zh - 1 - y, x, fratioZ y s)]%Z) (zseq (Z.to_nat s))) (zseq w).

(** benms.cc:28-79 [benms] behind nms.pyx:42-56 [nms]. *)
Definition fnms (cosf sinf : R -> R) (edge ori : image R) (r s : Z) (m : R) : res (image R) :=
  if negb (Nat.eqb (ht edge) (ht ori) && Nat.eqb (wd edge) (wd ori)) then Err ValueError
  else
    bind (tabM (ht edge) (wd edge) (fnms_pixel cosf sinf edge ori r m)) (fun out =>
      fscale_all out (fborder_writes (ht edge) (wd edge) s)).
