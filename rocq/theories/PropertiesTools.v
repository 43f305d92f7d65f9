(** C66: binary edge files; C67: the Pascal VOC colour map. *)
From Verif Require Export SpecTools ProofsLabels PropertiesLabels.
From Coq Require Import ZifyBool ZifyNat Psatz.
Open Scope Z_scope.
Open Scope list_scope.

(** ** C66 *)
Lemma fromfile_nth fuel : forall bytes, (List.length bytes <= fuel)%nat ->
  List.length (fromfile fuel bytes) = (List.length bytes / 4)%nat /\
  forall i k, (i < List.length bytes / 4)%nat -> (k < 4)%nat -> nth k (nth i (fromfile fuel bytes) []) 0 = nth (4 * i + k) bytes 0.
Proof.
  induction fuel as [|fuel IH]; intros bytes L.
  - destruct bytes; [|cbn in L; lia]. split; [reflexivity|]. cbn. lia.
  - destruct bytes as [|a [|b [|c [|d bytes]]]]; try (split; [reflexivity|cbn; lia]).
    cbn [List.length] in L. destruct (IH bytes ltac:(lia)) as (E & F).
    assert (D : (List.length (a :: b :: c :: d :: bytes) / 4 = S (List.length bytes / 4))%nat).
    { cbn [List.length]. replace (S (S (S (S (List.length bytes))))) with (List.length bytes + 1 * 4)%nat by lia.
      rewrite Nat.div_add by lia. lia. }
    rewrite D. cbn [fromfile]. split; [cbn [List.length]; rewrite E; reflexivity|].
    intros [|i] k Hi Hk; cbn [nth].
    + destruct k as [|[|[|[|k]]]]; try lia; reflexivity.
    + rewrite F by lia. replace (4 * S i + k)%nat with (S (S (S (S (4 * i + k))))) by lia. reflexivity.
Qed.

(** What the decoder returns for every file: bit [k] of word [y * w + x], and zero from bit 32 on; up to three
    bytes at the end are ignored; any other size is an error. *)
Theorem binary_file_decoding : forall bytes h w n, 0 <= n ->
  (List.length bytes / 4 = h * w)%nat ->
  exists r, binary_multilabel_decoding bytes h w n = Ok r /\ wf_stack r /\ s_h r = h /\ s_w r = w /\
    List.length (chans r) = Z.to_nat n /\
    forall k y x, (k < Z.to_nat n)%nat -> (y < h)%nat -> (x < w)%nat ->
      at3 r k (Z.of_nat y) (Z.of_nat x) = if Nat.ltb k 32 then file_bit bytes (y * w + x) k else 0.
Proof.
  intros bytes h w n N L. unfold binary_multilabel_decoding.
  destruct (fromfile_nth (List.length bytes) bytes (le_n _)) as (E & F).
  rewrite E, L, Nat.eqb_refl. cbn [negb]. replace (0 <=? n) with true by lia. replace (n <? 0) with false by lia.
  eexists; split; [reflexivity|]. cbn [s_h s_w chans].
  split; [|split; [reflexivity|split; [reflexivity|split; [rewrite map_length, zseq_length; reflexivity|]]]].
  - intros e He. apply in_map_iff in He. destruct He as (k & <- & _). split; [apply wf_tab|split; reflexivity].
  - intros k y x Hk Hy Hx. unfold at3. cbn [s_h s_w chans].
    rewrite map_zseq_nth by exact Hk. rewrite px_tab.
    assert (I : inb h w (Z.of_nat y) (Z.of_nat x) = true) by (unfold inb; lia). rewrite I.
    destruct (Nat.ltb_spec k 32) as [K|K].
    + replace (Z.of_nat k <? 32) with true by lia. unfold file_bit. do 2 f_equal.
      * assert (B : (k / 8 < 4)%nat) by (apply Nat.div_lt_upper_bound; lia).
        replace (Z.to_nat (Z.of_nat k / 8)) with (k / 8)%nat by (change 8 with (Z.of_nat 8); rewrite <- Nat2Z.inj_div; lia).
        replace (Z.to_nat (Z.of_nat y * Z.of_nat w + Z.of_nat x)) with (y * w + x)%nat by lia.
        apply F; [|exact B]. rewrite L. nia.
      * change 8 with (Z.of_nat 8). rewrite <- Nat2Z.inj_mod. reflexivity.
    + replace (Z.of_nat k <? 32) with false by lia. reflexivity.
Qed.

Theorem binary_file_wrong_size : forall bytes h w n,
  (List.length bytes / 4 <> h * w)%nat -> binary_multilabel_decoding bytes h w n = Err ValueError.
Proof.
  intros bytes h w n L. unfold binary_multilabel_decoding.
  destruct (fromfile_nth (List.length bytes) bytes (le_n _)) as (E & _). rewrite E.
  replace (Nat.eqb _ _) with false by (symmetry; apply Nat.eqb_neq; exact L). reflexivity.
Qed.

(** *** Round trip *)
Lemma flat4_length l : List.length (flat_map word_bytes l) = (4 * List.length l)%nat.
Proof. induction l as [|v l IH]; [reflexivity|]. cbn [flat_map]. rewrite app_length, IH. cbn [word_bytes map List.length]. lia. Qed.
Lemma flat4_nth l : forall i k, (i < List.length l)%nat -> (k < 4)%nat ->
  nth (4 * i + k) (flat_map word_bytes l) 0 = nth i l 0 / 2 ^ (8 * Z.of_nat k) mod 256.
Proof.
  induction l as [|v l IH]; intros i k Hi Hk; [cbn in Hi; lia|]. cbn [flat_map].
  destruct i as [|i].
  - rewrite app_nth1 by (cbn [word_bytes map List.length]; lia). destruct k as [|[|[|[|k]]]]; try lia; reflexivity.
  - rewrite app_nth2 by (cbn [word_bytes map List.length]; lia).
    replace (4 * S i + k - List.length (word_bytes v))%nat with (4 * i + k)%nat by (cbn [word_bytes map List.length]; lia).
    cbn in Hi. rewrite IH by lia. reflexivity.
Qed.
Lemma concat_length_wf {A} (im : image A) : wf im -> List.length (List.concat (rows im)) = (ht im * wd im)%nat.
Proof.
  intros (L & F). rewrite <- L. clear L. induction F as [|r l R F IH]; [reflexivity|].
  cbn [List.concat List.length]. rewrite app_length, IH, R. lia.
Qed.
Lemma concat_nth_wf (w : nat) : forall (l : list (list Z)) y x, Forall (fun r => List.length r = w) l ->
  (y < List.length l)%nat -> (x < w)%nat -> nth (y * w + x) (List.concat l) 0 = nth x (nth y l []) 0.
Proof.
  induction l as [|r l IH]; intros y x F Hy Hx; [cbn in Hy; lia|].
  inversion F as [|? ? R F']; subst. cbn [List.concat]. destruct y as [|y].
  - rewrite app_nth1 by lia. reflexivity.
  - rewrite app_nth2 by nia. cbn in Hy. cbn [nth]. rewrite <- IH by (try assumption; lia). f_equal. nia.
Qed.

Lemma tofile_bit im y x k : wf im -> (y < ht im)%nat -> (x < wd im)%nat -> (k < 32)%nat ->
  file_bit (tofile im) (y * wd im + x) k = b2z (Z.testbit (px 0 im (Z.of_nat y) (Z.of_nat x)) (Z.of_nat k)).
Proof.
  intros W Hy Hx Hk. unfold file_bit, tofile.
  assert (B : (k / 8 < 4)%nat) by (apply Nat.div_lt_upper_bound; lia).
  rewrite flat4_nth; [|rewrite concat_length_wf by exact W; nia|exact B].
  destruct W as (L & F). rewrite concat_nth_wf; [|exact F|lia|exact Hx].
  assert (P : px 0 im (Z.of_nat y) (Z.of_nat x) = nth x (nth y (rows im) []) 0).
  { unfold px. replace (0 <=? Z.of_nat y) with true by lia. replace (0 <=? Z.of_nat x) with true by lia. cbn [andb].
    rewrite !Nat2Z.id. reflexivity. }
  rewrite P. set (v := nth x (nth y (rows im) []) 0). f_equal.
  change 256 with (2 ^ 8). rewrite Z.mod_pow2_bits_low.
  2:{ pose proof (Nat.mod_upper_bound k 8 ltac:(lia)). lia. }
  rewrite Z.div_pow2_bits by lia. f_equal. pose proof (Nat.div_mod k 8 ltac:(lia)). lia.
Qed.

(** A file holding the words of a 32-bit label image decodes to the same stack as the image itself (C25). *)
Theorem binary_file_like_tif : forall im n, wf im -> 0 <= n ->
  binary_multilabel_decoding (tofile im) (ht im) (wd im) n = decode_tif im n.
Proof.
  intros im n W N. unfold binary_multilabel_decoding, decode_tif.
  destruct (fromfile_nth (List.length (tofile im)) (tofile im) (le_n _)) as (E & F).
  assert (L : (List.length (tofile im) / 4 = ht im * wd im)%nat).
  { unfold tofile. rewrite flat4_length, concat_length_wf by exact W. rewrite Nat.mul_comm. apply Nat.div_mul. lia. }
  rewrite E, L, Nat.eqb_refl. cbn [negb]. replace (0 <=? n) with true by lia. replace (n <? 0) with false by lia.
  do 2 f_equal. apply map_ext_in. intros k Hk. apply in_zseq in Hk. apply tab_ext. intros y x I. apply inb_spec in I.
  destruct (k <? 32) eqn:K; [|reflexivity].
  pose proof (tofile_bit im (Z.to_nat y) (Z.to_nat x) (Z.to_nat k) W ltac:(lia) ltac:(lia) ltac:(lia)) as T.
  rewrite !Z2Nat.id in T by lia. unfold wrap. rewrite Z.mod_pow2_bits_low by lia. rewrite <- T.
  unfold file_bit. do 2 f_equal.
  - assert (B : (Z.to_nat k / 8 < 4)%nat) by (apply Nat.div_lt_upper_bound; lia).
    replace (Z.to_nat (k / 8)) with (Z.to_nat k / 8)%nat.
    2:{ rewrite Z2Nat.inj_div by lia. reflexivity. }
    replace (Z.to_nat (y * Z.of_nat (wd im) + x)) with (Z.to_nat y * wd im + Z.to_nat x)%nat by nia.
    apply F; [rewrite L; nia|exact B].
  - rewrite Nat2Z.inj_mod. rewrite Z2Nat.id by lia. reflexivity.
Qed.

(** Saving the encoded edges of at most 32 categories and decoding them gives the edges back. *)
Theorem binary_file_round_trip : forall s n, wf_stack s -> binary_stack s -> (List.length (chans s) <= 32)%nat -> 0 <= n ->
  binary_multilabel_decoding (tofile (default_multilabel_encoding s)) (s_h s) (s_w s) n = Ok (resized (Z.to_nat n) s) /\
  binary_multilabel_decoding (tofile (default_multilabel_encoding s)) (s_h s) (s_w s) (Z.of_nat (List.length (chans s))) = Ok s.
Proof.
  intros s n W B L N. destruct (default_encoding_wf s) as (W0 & Hh & Hw).
  assert (A : forall m, 0 <= m -> binary_multilabel_decoding (tofile (default_multilabel_encoding s)) (s_h s) (s_w s) m = Ok (resized (Z.to_nat m) s)).
  { intros m M. rewrite <- Hh, <- Hw. rewrite binary_file_like_tif by assumption. apply decode_tif_spec; assumption. }
  split; [apply A, N|]. rewrite A by lia. rewrite Nat2Z.id. rewrite resized_same. reflexivity.
Qed.

(** Two label images of the same shape with the same file have the same 32-bit words. *)
Theorem binary_file_injective : forall a b, wf a -> wf b -> ht a = ht b -> wd a = wd b -> tofile a = tofile b ->
  forall y x, px 0 a y x mod 2 ^ 32 = px 0 b y x mod 2 ^ 32.
Proof.
  intros a b Wa Wb Hh Hw E y x. destruct (inb (ht a) (wd a) y x) eqn:I.
  2:{ rewrite (px_out 0 a) by assumption. rewrite Hh, Hw in I. rewrite (px_out 0 b) by assumption. reflexivity. }
  apply inb_spec in I. apply Z.bits_inj'. intros k K.
  destruct (Z.lt_ge_cases k 32) as [L|L].
  2:{ rewrite !Z.mod_pow2_bits_high by lia. reflexivity. }
  rewrite !Z.mod_pow2_bits_low by lia.
  pose proof (tofile_bit a (Z.to_nat y) (Z.to_nat x) (Z.to_nat k) Wa ltac:(lia) ltac:(lia) ltac:(lia)) as Ta.
  pose proof (tofile_bit b (Z.to_nat y) (Z.to_nat x) (Z.to_nat k) Wb ltac:(lia) ltac:(lia) ltac:(lia)) as Tb.
  rewrite <- Hw, <- E, Ta in Tb. rewrite !Z2Nat.id in Tb by lia.
  destruct (Z.testbit (px 0 a y x) k), (Z.testbit (px 0 b y x) k); try reflexivity; discriminate.
Qed.

Example ex_binary :
  let s := mkStack 1 2 [tab 1 2 (fun _ x => x); tab 1 2 (fun _ _ => 0); tab 1 2 (fun _ _ => 1)] in
  wf_stack s /\ binary_stack s /\ tofile (default_multilabel_encoding s) = [4; 0; 0; 0; 5; 0; 0; 0] /\
  binary_multilabel_decoding [4; 0; 0; 0; 5; 0; 0; 0; 77] 1 2 3 = Ok s /\
  binary_multilabel_decoding [4; 0; 0; 0; 5; 0; 0] 1 2 3 = Err ValueError.
Proof.
  cbv zeta. split; [|split].
  - intros e [<- | [<- | [<- | []]]]; (split; [apply wf_tab|split; reflexivity]).
  - intros e [<- | [<- | [<- | []]]] y x; rewrite px_tab; destruct (inb 1 2 y x) eqn:I; auto. apply inb_spec in I. lia.
  - vm_compute. repeat split; reflexivity.
Qed.

(** ** C67 *)
Lemma bitget_spec v i : 0 <= i -> bitget v i = b2z (Z.testbit v i).
Proof.
  intros I. unfold bitget. f_equal. rewrite Z.shiftl_1_l. destruct (Z.testbit v i) eqn:T.
  - apply negb_true_iff. apply Z.eqb_neq. intros E. apply (f_equal (fun z => Z.testbit z i)) in E.
    rewrite Z.land_spec, Z.pow2_bits_true, T, Z.bits_0 in E by lia. discriminate.
  - apply negb_false_iff. apply Z.eqb_eq. apply Z.bits_inj'. intros j J. rewrite Z.land_spec, Z.bits_0.
    destruct (Z.eq_dec j i) as [-> | N]; [rewrite T; reflexivity|]. rewrite Z.pow2_bits_false by lia. apply andb_false_r.
Qed.
Lemma bit_shift b sh p : 0 <= sh -> Z.testbit (Z.shiftl (b2z b) sh) p = b && (p =? sh).
Proof.
  intros S. destruct b; cbn [b2z andb].
  - rewrite Z.shiftl_1_l. rewrite Z.pow2_bits_eqb by lia. apply Z.eqb_sym.
  - rewrite Z.shiftl_0_l. apply Z.bits_0.
Qed.

Lemma colour_loop_bits n : forall j c r g b, (j + n <= 8)%nat -> 0 <= c ->
  forall ch p, (ch < 3)%nat -> 0 <= p ->
  Z.testbit (part ch (colour_loop j n c r g b)) p =
  Z.testbit (part ch (r, g, b)) p ||
  ((7 - Z.of_nat (j + n) <? p) && (p <=? 7 - Z.of_nat j) && Z.testbit c (3 * (7 - Z.of_nat j - p) + Z.of_nat ch)).
Proof.
  induction n as [|n IH]; intros j c r g b J C ch p Ch P.
  - cbn [colour_loop]. replace ((_ <? p) && (p <=? _)) with false by lia. rewrite orb_false_r. reflexivity.
  - cbn [colour_loop]. cbv zeta. rewrite IH; [|lia|apply Z.shiftr_nonneg; exact C|exact Ch|exact P].
    assert (Pt : Z.testbit (part ch (Z.lor r (Z.shiftl (bitget c 0) (7 - Z.of_nat j)), Z.lor g (Z.shiftl (bitget c 1) (7 - Z.of_nat j)), Z.lor b (Z.shiftl (bitget c 2) (7 - Z.of_nat j)))) p
      = Z.testbit (part ch (r, g, b)) p || (Z.testbit c (Z.of_nat ch) && (p =? 7 - Z.of_nat j))).
    { destruct ch as [|[|[|ch]]]; try lia; cbn [part]; rewrite Z.lor_spec, bitget_spec, bit_shift by lia; reflexivity. }
    rewrite Pt. rewrite <- orb_assoc. f_equal.
    destruct (Z.eqb_spec p (7 - Z.of_nat j)) as [-> | N].
    + replace ((_ <? _) && (_ <=? 7 - Z.of_nat (S j))) with false by lia.
      replace ((7 - Z.of_nat (j + S n) <? 7 - Z.of_nat j) && (7 - Z.of_nat j <=? 7 - Z.of_nat j)) with true by lia.
      cbn [andb]. rewrite orb_false_r, andb_true_r. f_equal. lia.
    + rewrite andb_false_r. cbn [orb].
      replace (7 - Z.of_nat (S j + n)) with (7 - Z.of_nat (j + S n)) by lia.
      replace ((7 - Z.of_nat (j + S n) <? p) && (p <=? 7 - Z.of_nat (S j))) with ((7 - Z.of_nat (j + S n) <? p) && (p <=? 7 - Z.of_nat j)) by lia.
      destruct ((7 - Z.of_nat (j + S n) <? p) && (p <=? 7 - Z.of_nat j)) eqn:R; [|reflexivity]. cbn [andb].
      rewrite Z.shiftr_spec by lia. f_equal. lia.
Qed.

Lemma color_map_row N i : (i < N)%nat -> nth i (color_map N) (0, 0, 0) =
  let '(r, g, b) := colour_loop 0 8 (Z.of_nat i) 0 0 0 in (wrap 8 r, wrap 8 g, wrap 8 b).
Proof.
  intros I. unfold color_map.
  rewrite (nth_indep _ (0, 0, 0) ((fun i => let '(r, g, b) := colour_loop 0 8 (Z.of_nat i) 0 0 0 in (wrap 8 r, wrap 8 g, wrap 8 b)) 0%nat))
    by (rewrite map_length, seq_length; exact I).
  rewrite (map_nth (fun i => let '(r, g, b) := colour_loop 0 8 (Z.of_nat i) 0 0 0 in (wrap 8 r, wrap 8 g, wrap 8 b))).
  rewrite seq_nth by exact I. reflexivity.
Qed.

(** Bit [7 - k] of channel [ch] of row [i] is bit [3 k + ch] of [i]; nothing else is set. *)
Theorem colour_bits : forall N i ch p, (i < N)%nat -> (ch < 3)%nat -> 0 <= p ->
  Z.testbit (part ch (nth i (color_map N) (0, 0, 0))) p =
  (p <? 8) && Z.testbit (Z.of_nat i) (3 * (7 - p) + Z.of_nat ch).
Proof.
  intros N i ch p I Ch P. rewrite color_map_row by exact I.
  pose proof (colour_loop_bits 8 0 (Z.of_nat i) 0 0 0 ltac:(lia) ltac:(lia) ch p Ch P) as E.
  destruct (colour_loop 0 8 (Z.of_nat i) 0 0 0) as [[r g] b].
  replace (part ch (wrap 8 r, wrap 8 g, wrap 8 b)) with (wrap 8 (part ch (r, g, b))) by (destruct ch as [|[|ch]]; reflexivity).
  unfold wrap. destruct (Z.ltb_spec p 8) as [L|L].
  - rewrite Z.mod_pow2_bits_low by lia. rewrite E.
    replace (Z.testbit (part ch (0, 0, 0)) p) with false by (destruct ch as [|[|ch]]; cbn [part]; rewrite Z.bits_0; reflexivity).
    cbn [orb]. replace ((_ <? p) && (p <=? _)) with true by lia. reflexivity.
  - rewrite Z.mod_pow2_bits_high by lia. reflexivity.
Qed.

(** One colour per row, each made of three bytes; the background (row 0) is black. *)
Theorem colour_rows : forall N, List.length (color_map N) = N /\
  (forall i ch, (i < N)%nat -> (ch < 3)%nat -> byte (part ch (nth i (color_map N) (0, 0, 0)))) /\
  ((0 < N)%nat -> nth 0 (color_map N) (0, 0, 0) = (0, 0, 0)) /\
  (forall M i, (i < N)%nat -> (i < M)%nat -> nth i (color_map N) (0, 0, 0) = nth i (color_map M) (0, 0, 0)).
Proof.
  intros N. split; [unfold color_map; rewrite map_length, seq_length; reflexivity|]. split; [|split].
  - intros i ch I Ch. rewrite color_map_row by exact I. destruct (colour_loop 0 8 (Z.of_nat i) 0 0 0) as [[r g] b].
    unfold byte. destruct ch as [|[|ch]]; cbn [part]; apply Z.mod_pos_bound; lia.
  - intros H. rewrite color_map_row by exact H. reflexivity.
  - intros M i I I'. rewrite !color_map_row by assumption. reflexivity.
Qed.

(** Two rows have the same colour exactly if their numbers agree modulo [2^24]. *)
Theorem colours_distinct : forall N i j, (i < N)%nat -> (j < N)%nat ->
  (nth i (color_map N) (0, 0, 0) = nth j (color_map N) (0, 0, 0) <-> Z.of_nat i mod 2 ^ 24 = Z.of_nat j mod 2 ^ 24).
Proof.
  intros N i j I J. split; intros E.
  - apply Z.bits_inj'. intros q Q. destruct (Z.lt_ge_cases q 24) as [L|L].
    2:{ rewrite !Z.mod_pow2_bits_high by lia. reflexivity. }
    rewrite !Z.mod_pow2_bits_low by lia.
    pose proof (Z.div_mod q 3 ltac:(lia)) as D. pose proof (Z.mod_pos_bound q 3 ltac:(lia)) as B.
    assert (D7 : 0 <= q / 3 <= 7) by lia.
    pose proof (colour_bits N i (Z.to_nat (q mod 3)) (7 - q / 3) I ltac:(lia) ltac:(lia)) as Ei.
    pose proof (colour_bits N j (Z.to_nat (q mod 3)) (7 - q / 3) J ltac:(lia) ltac:(lia)) as Ej.
    rewrite E, Ej in Ei. replace (7 - q / 3 <? 8) with true in Ei by lia. cbn [andb] in Ei.
    rewrite Z2Nat.id in Ei by lia. replace (3 * (7 - (7 - q / 3)) + q mod 3) with q in Ei by lia. symmetry; exact Ei.
  - assert (P : forall ch, (ch < 3)%nat -> part ch (nth i (color_map N) (0, 0, 0)) = part ch (nth j (color_map N) (0, 0, 0))).
    { intros ch Ch. apply Z.bits_inj'. intros p P. rewrite !colour_bits by assumption.
      destruct (Z.ltb_spec p 8) as [L|L]; [|reflexivity]. cbn [andb].
      rewrite <- (Z.mod_pow2_bits_low (Z.of_nat i) 24) by lia. rewrite <- (Z.mod_pow2_bits_low (Z.of_nat j) 24) by lia. rewrite E. reflexivity. }
    pose proof (P 0%nat ltac:(lia)) as P0. pose proof (P 1%nat ltac:(lia)) as P1. pose proof (P 2%nat ltac:(lia)) as P2.
    destruct (nth i (color_map N) (0, 0, 0)) as [[r g] b], (nth j (color_map N) (0, 0, 0)) as [[r' g'] b']. cbn [part] in *. congruence.
Qed.

(** The normalized map: every entry is the byte divided by 255, between 0 and 1. *)
Theorem colours_normalized : forall N, List.length (color_map_normalized N) = N /\
  forall i, (i < N)%nat -> exists r g b,
    nth i (color_map_normalized N) (0, 0, 0)%Q = (r, g, b) /\
    (0 <= r <= 1 /\ 0 <= g <= 1 /\ 0 <= b <= 1)%Q /\
    (r * 255 == inject_Z (part 0 (nth i (color_map N) (0, 0, 0)%Z)) /\ g * 255 == inject_Z (part 1 (nth i (color_map N) (0, 0, 0)%Z)) /\
     b * 255 == inject_Z (part 2 (nth i (color_map N) (0, 0, 0)%Z)))%Q.
Proof.
  intros N. unfold color_map_normalized. destruct (colour_rows N) as (L & B & _).
  split; [rewrite map_length; exact L|]. intros i I.
  set (F := fun c : Z * Z * Z => let '(r, g, b) := c in (inject_Z r / 255, inject_Z g / 255, inject_Z b / 255)%Q).
  rewrite (nth_indep _ (0, 0, 0)%Q (F (0, 0, 0))) by (rewrite map_length, L; exact I).
  rewrite (map_nth F). pose proof (B i 0%nat I ltac:(lia)) as B0. pose proof (B i 1%nat I ltac:(lia)) as B1. pose proof (B i 2%nat I ltac:(lia)) as B2.
  destruct (nth i (color_map N) (0, 0, 0)) as [[r g] b]. cbn [part] in *. unfold F, byte in *.
  exists (inject_Z r / 255)%Q, (inject_Z g / 255)%Q, (inject_Z b / 255)%Q. split; [reflexivity|].
  assert (Q01 : forall v, 0 <= v < 256 -> (0 <= inject_Z v / 255 <= 1)%Q).
  { intros v V. split.
    - apply Qle_shift_div_l; [reflexivity|]. rewrite Qmult_0_l. change 0%Q with (inject_Z 0). rewrite <- Zle_Qle. lia.
    - apply Qle_shift_div_r; [reflexivity|]. rewrite Qmult_1_l. change 255%Q with (inject_Z 255). rewrite <- Zle_Qle. lia. }
  assert (Qm : forall v, (inject_Z v / 255 * 255 == inject_Z v)%Q) by (intros v; field).
  repeat split; try (apply Q01; assumption); apply Qm.
Qed.

Example ex_colours : color_map 5 = [(0, 0, 0); (128, 0, 0); (0, 128, 0); (128, 128, 0); (0, 0, 128)] /\
  nth 20 (color_map 22) (0, 0, 0) = (0, 64, 128).
Proof. vm_compute. split; reflexivity. Qed.

Print Assumptions binary_file_decoding.
Print Assumptions binary_file_wrong_size.
Print Assumptions binary_file_like_tif.
Print Assumptions binary_file_round_trip.
Print Assumptions binary_file_injective.
Print Assumptions colour_bits.
Print Assumptions colour_rows.
Print Assumptions colours_distinct.
Print Assumptions colours_normalized.
