(** Thresholds and thresholding of 8-bit predictions in binary64: pyEdgeEval/common/utils.py:6-13, the loaders in
    pyEdgeEval/datasets/{cityscapes,sbd,otf_cityscapes}.py and pyEdgeEval/common/*/evaluate_boundaries.py.

    Simplifications: as in ModelFloat.v ([rnd] has no upper bound on the exponent). *)
From Verif Require Export ModelMatchF ModelEval.
Open Scope Z_scope.
Open Scope list_scope.

(** [np.linspace(a, b, n)]: [arange(n) * step + a] with [step = (b - a) / (n - 1)], the last value replaced by [b];
    for n = 1, [0 * (b - a) + a]. *)
Definition flinspace (a b : R) (n : nat) : list R :=
  match n with
  | 1%nat => [fadd (fmul 0 (fsub b a)) a]
  | _ => let step := fdiv (fsub b a) (IZR (Z.of_nat n - 1)) in
         map (fun i => if i =? Z.of_nat n - 1 then b else fadd (fmul (IZR i) step) a) (zseq n)
  end.
(** utils.py:7-11 for an integer: [np.linspace(1.0 / (n + 1), 1.0 - 1.0 / (n + 1), n)]. *)
Definition fthresholds_of_int (n : Z) : res (list R) :=
  if n + 1 =? 0 then Err ZeroDivisionError
  else if n <? 0 then Err ValueError
  else Ok (flinspace (fdiv 1 (IZR (n + 1))) (fsub 1 (fdiv 1 (IZR (n + 1)))) (Z.to_nat n)).
(** How an 8-bit prediction becomes a float64 array: [pred / 255] (datasets/cityscapes.py:46, datasets/sbd.py:49,
    datasets/otf_cityscapes.py:165) or [img_as_float(img)] (datasets/bsds.py:38), which multiplies by [1.0 / 255]. *)
Inductive loader := Divide | Rescale.
Definition fload (l : loader) (v : Z) : R :=
  match l with Divide => fdiv (IZR v) 255 | Rescale => fmul (IZR v) (fdiv 1 255) end.
Definition fprediction (l : loader) (pred : image Z) : image R := imap (fload l) pred.
(** binary_label/evaluate_boundaries.py:66,151 and multi_label/evaluate_boundaries.py:83: [_pred = pred >= thresh]. *)
Definition fthresholded (pred : image R) (thresh : R) : image bool := imap (fun v => Rleb thresh v) pred.
