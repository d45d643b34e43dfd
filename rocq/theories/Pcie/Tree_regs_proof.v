(** What writing the bus number, base and limit registers of a bridge leaves in them. *)
From Verif Require Import Base.Prelude Base.Bits Pcie.Mem_model Pcie.Bar_model Pcie.Bar_spec Base.Masks Pcie.Bar_proof Pcie.Tree_model Pcie.Tree_spec.
From Coq Require Import Lia ZArith.
Open Scope Z_scope.
#[local] Unset Implicit Arguments.

Lemma tb_run n m j : 0 <= n -> 0 <= m -> 0 <= j -> Z.testbit (Z.shiftl (Z.ones n) m) j = (m <=? j) && (j <? m + n).
Proof.
  intros Hn Hm Hj. rewrite Z.shiftl_spec by lia. destruct (Z.leb_spec m j).
  - rewrite Z.testbit_ones_nonneg by lia. cbn [andb]. lia.
  - rewrite Z.testbit_neg_r by lia. reflexivity.
Qed.
Lemma byte_idx i m n : 0 <= i -> (m <=? i / 8) && (i / 8 <? m + n) = (8 * m <=? i) && (i <? 8 * (m + n)).
Proof.
  intros Hi. pose proof (Z.div_mod i 8 ltac:(lia)). pose proof (Z.mod_pos_bound i 8 ltac:(lia)).
  destruct (Z.leb_spec m (i / 8)), (Z.leb_spec (8 * m) i), (Z.ltb_spec (i / 8) (m + n)), (Z.ltb_spec i (8 * (m + n))); cbn; lia.
Qed.
Lemma run_nonneg n m : 0 <= n -> 0 <= m -> 0 <= Z.shiftl (Z.ones n) m.
Proof. intros Hn Hm. rewrite Z.shiftl_nonneg, Z.ones_equiv. pose proof (@pow2_pos n Hn). lia. Qed.
Lemma bmu_rng old n m new p q i : 0 <= n -> 0 <= m -> 0 <= p <= q -> 0 <= i ->
  Z.testbit (byte_mask_update old (Z.shiftl (Z.ones n) m) new (Z.shiftl (Z.ones (q - p)) p)) i =
  if (8 * m <=? i) && (i <? 8 * (m + n)) && ((p <=? i) && (i <? q)) then Z.testbit new i else Z.testbit old i.
Proof.
  intros. rewrite bmu_bits by (auto using run_nonneg). assert (0 <= i / 8) by (apply Z.div_pos; lia).
  rewrite !tb_run, byte_idx by lia. replace (p + (q - p)) with q by lia. reflexivity.
Qed.
Lemma byte_rng old n m new i : 0 <= n -> 0 <= m -> 0 <= i ->
  Z.testbit (byte_of old (Z.shiftl (Z.ones n) m) new) i = if (8 * m <=? i) && (i <? 8 * (m + n)) then Z.testbit new i else Z.testbit old i.
Proof.
  intros. unfold byte_of. rewrite bmu_bits by (auto using run_nonneg). assert (0 <= i / 8) by (apply Z.div_pos; lia).
  rewrite tb_run, byte_idx, Z.bits_m1, andb_true_r by lia. reflexivity.
Qed.
Lemma tb_cat k a b i : 0 <= k -> 0 <= a < 2 ^ k -> 0 <= i -> Z.testbit (a + 2 ^ k * b) i = if i <? k then Z.testbit a i else Z.testbit b (i - k).
Proof.
  intros Hk Ha Hi. destruct (Z.ltb_spec i k).
  - rewrite <- (Z.mod_pow2_bits_low (a + 2 ^ k * b) k i) by lia. replace (a + 2 ^ k * b) with (a + b * 2 ^ k) by lia.
    rewrite Z.mod_add, Z.mod_small by lia. reflexivity.
  - replace i with ((i - k) + k) at 1 by lia. rewrite <- Z.div_pow2_bits by lia. replace (a + 2 ^ k * b) with (a + b * 2 ^ k) by lia.
    rewrite Z.div_add, Z.div_small by lia. reflexivity.
Qed.
Lemma tb_low0 x k i : x mod 2 ^ k = 0 -> 0 <= i < k -> Z.testbit x i = false.
Proof. intros H Hi. rewrite <- (Z.mod_pow2_bits_low x k i) by lia. rewrite H. apply Z.bits_0. Qed.
Lemma tb_low1 x k i : x mod 2 ^ k = 2 ^ k - 1 -> 0 <= i < k -> Z.testbit x i = true.
Proof. intros H Hi. rewrite <- (Z.mod_pow2_bits_low x k i) by lia. rewrite H. replace (2 ^ k - 1) with (Z.ones k) by (rewrite Z.ones_equiv; lia). apply Z.ones_spec_low. lia. Qed.
Lemma div_small_pow x n k : 0 <= x < 2 ^ n -> 0 <= k <= n -> 0 <= Z.shiftr x k < 2 ^ (n - k).
Proof.
  intros H Hk. rewrite Z.shiftr_div_pow2 by lia. pose proof (@pow2_pos k ltac:(lia)). pose proof (@pow2_split k n ltac:(lia)).
  split; [apply Z.div_pos; lia|apply Z.div_lt_upper_bound; lia].
Qed.

(** The low 32 bits of a base on a 2 ^ 20 boundary, from the upper half of a register; [k] of the bits are kept. *)
Ltac cases i := repeat match goal with |- context [?a <=? ?b] => destruct (Z.leb_spec a b) | |- context [?a <? ?b] => destruct (Z.ltb_spec a b) end; cbn [andb orb].

Section Io.
  Variables (w : win) (o : win).
  Hypothesis (Hw : wf_win 32 12 w) (Ho : wf_win 32 12 o).
  Let d7 := Z.land (Z.shiftr (w_base w) 8) 0xf0 + 256 * Z.land (Z.shiftr (w_limit w) 8) 0xf0.
  Let d12 := hh (Z.shiftr (w_base w) 16) (Z.shiftr (w_limit w) 16).
  Lemma d7_bit i : 0 <= i < 16 -> Z.testbit d7 i = if i <? 8 then Z.testbit (w_base w) (i + 8) && (4 <=? i) else Z.testbit (w_limit w) i && (12 <=? i).
  Proof.
    intros Hi. unfold d7. change 256 with (2 ^ 8). rewrite tb_cat; [|lia| |lia].
    2:{ change 0xf0 with (Z.shiftl (Z.ones 4) 4). split; [apply Z.land_nonneg; right; apply run_nonneg; lia|].
        apply Z.lt_le_trans with (2 ^ 8); [|lia]. assert (E : Z.land (Z.shiftr (w_base w) 8) (Z.shiftl (Z.ones 4) 4) = Z.land (Z.shiftr (w_base w) 8) (Z.shiftl (Z.ones 4) 4) mod 2 ^ 8).
        { apply Z.bits_inj'. intros j Hj. destruct (Z.ltb_spec j 8); [rewrite Z.mod_pow2_bits_low by lia; reflexivity|]. rewrite Z.mod_pow2_bits_high by lia.
          rewrite Z.land_spec, tb_run by lia. destruct (Z.ltb_spec j (4 + 4)); [lia|]. rewrite !andb_false_r. reflexivity. }
        rewrite E. apply Z.mod_pos_bound. lia. }
    change 0xf0 with (Z.shiftl (Z.ones 4) 4). destruct (Z.ltb_spec i 8); rewrite Z.land_spec, tb_run, Z.shiftr_spec by lia.
    - f_equal. cases i; lia.
    - replace (i - 8 + 8) with i by lia. f_equal. cases i; lia.
  Qed.
  Lemma d12_bit i : 0 <= i < 32 -> Z.testbit d12 i = if i <? 16 then Z.testbit (w_base w) (i + 16) else Z.testbit (w_limit w) i.
  Proof.
    intros Hi. unfold d12, hh. change 65536 with (2 ^ 16). rewrite tb_cat; [|lia|exact (div_small_pow _ 32 16 (proj1 Hw) ltac:(lia))|lia].
    destruct (Z.ltb_spec i 16); rewrite Z.shiftr_spec by lia; f_equal; lia.
  Qed.
  Lemma io_base_written : byte_of (byte_mask_update (w_base o) 2 (Z.shiftl d7 8) 0xf000) 0xc (Z.shiftl d12 16) = w_base w.
  Proof.
    destruct Hw as (W1 & W2 & W3 & W4), Ho as (O1 & O2 & O3 & O4). apply Z.bits_inj'. intros i Hi.
    change 0xc with (Z.shiftl (Z.ones 2) 2). match goal with |- context [byte_mask_update ?a 2 ?b ?c] => change (byte_mask_update a 2 b c) with (byte_mask_update a (Z.shiftl (Z.ones 1) 1) b c) end. change 0xf000 with (Z.shiftl (Z.ones (16 - 12)) 12).
    rewrite byte_rng, bmu_rng by lia. cases i; try lia.
    all: try (rewrite Z.shiftl_spec by lia).
    all: try (rewrite d12_bit by lia; destruct (Z.ltb_spec (i - 16) 16); [f_equal; lia|lia]).
    all: try (rewrite d7_bit by lia; destruct (Z.ltb_spec (i - 8) 8); [|lia]; destruct (Z.leb_spec 4 (i - 8)); [|lia]; rewrite andb_true_r; f_equal; lia).
    all: try (rewrite (tb_low0 _ 12), (tb_low0 (w_base w) 12) by (auto; lia); reflexivity).
    all: try (rewrite (@testbit_small (w_base o) 32), (@testbit_small (w_base w) 32) by (auto; lia); reflexivity).
  Qed.
  Lemma io_limit_written : byte_of (Z.lor (byte_mask_update (w_limit o) 2 d7 0xf000) 0xfff) 0xc d12 = w_limit w.
  Proof.
    destruct Hw as (W1 & W2 & W3 & W4), Ho as (O1 & O2 & O3 & O4). apply Z.bits_inj'. intros i Hi.
    change 0xc with (Z.shiftl (Z.ones 2) 2). match goal with |- context [byte_mask_update ?a 2 ?b ?c] => change (byte_mask_update a 2 b c) with (byte_mask_update a (Z.shiftl (Z.ones 1) 1) b c) end. change 0xf000 with (Z.shiftl (Z.ones (16 - 12)) 12).
    change 0xfff with (Z.shiftl (Z.ones 12) 0).
    rewrite byte_rng, Z.lor_spec, bmu_rng, tb_run by lia. cases i; try lia; rewrite ?orb_true_r, ?orb_false_r.
    all: try (rewrite d12_bit by lia; destruct (Z.ltb_spec i 16); [lia|reflexivity]).
    all: try (rewrite d7_bit by lia; destruct (Z.ltb_spec i 8); [lia|]; destruct (Z.leb_spec 12 i); [|lia]; rewrite andb_true_r; reflexivity).
    all: try (rewrite (tb_low1 (w_limit w) 12) by (auto; lia); reflexivity).
    all: try (rewrite (@testbit_small (w_limit o) 32), (@testbit_small (w_limit w) 32) by (auto; lia); reflexivity).
  Qed.
End Io.

Section Mem.
  Variables (w o : win) (n : Z).
  Hypothesis (Hn : 32 <= n) (Hw : wf_win n 20 w) (Ho : wf_win n 20 o).
  Let d8 := hh (Z.land (Z.shiftr (w_base w) 16) 0xfff0) (Z.land (Z.shiftr (w_limit w) 16) 0xfff0).
  Lemma land_fff0 x : 0 <= Z.land x 0xfff0 < 2 ^ 16.
  Proof.
    change 0xfff0 with (Z.shiftl (Z.ones 12) 4). split; [apply Z.land_nonneg; right; apply run_nonneg; lia|].
    assert (E : Z.land x (Z.shiftl (Z.ones 12) 4) = Z.land x (Z.shiftl (Z.ones 12) 4) mod 2 ^ 16).
    { apply Z.bits_inj'. intros j Hj. destruct (Z.ltb_spec j 16); [rewrite Z.mod_pow2_bits_low by lia; reflexivity|]. rewrite Z.mod_pow2_bits_high by lia.
      rewrite Z.land_spec, tb_run by lia. destruct (Z.ltb_spec j (4 + 12)); [lia|]. rewrite !andb_false_r. reflexivity. }
    rewrite E. apply Z.mod_pos_bound. lia.
  Qed.
  Lemma d8_bit i : 0 <= i < 32 -> Z.testbit d8 i = if i <? 16 then Z.testbit (w_base w) (i + 16) && (4 <=? i) else Z.testbit (w_limit w) i && (20 <=? i).
  Proof.
    intros Hi. unfold d8, hh. change 65536 with (2 ^ 16). rewrite tb_cat; [|lia|apply land_fff0|lia]. change 0xfff0 with (Z.shiftl (Z.ones 12) 4).
    destruct (Z.ltb_spec i 16); rewrite Z.land_spec, tb_run, Z.shiftr_spec by lia.
    - f_equal. cases i; lia.
    - replace (i - 16 + 16) with i by lia. f_equal. cases i; lia.
  Qed.
  Lemma mem_base_bit i : 0 <= i -> Z.testbit (byte_mask_update (w_base o) 0xc (Z.shiftl d8 16) 0xfff00000) i = if i <? 32 then Z.testbit (w_base w) i else Z.testbit (w_base o) i.
  Proof.
    destruct Hw as (W1 & W2 & W3 & W4), Ho as (O1 & O2 & O3 & O4). intros Hi.
    change 0xc with (Z.shiftl (Z.ones 2) 2). change 0xfff00000 with (Z.shiftl (Z.ones (32 - 20)) 20). rewrite bmu_rng by lia.
    cases i; try lia; try reflexivity.
    all: try (rewrite Z.shiftl_spec by lia).
    all: try (rewrite d8_bit by lia; destruct (Z.ltb_spec (i - 16) 16); [|lia]; destruct (Z.leb_spec 4 (i - 16)); [|lia]; rewrite andb_true_r; f_equal; lia).
    all: try (rewrite (tb_low0 _ 20), (tb_low0 (w_base w) 20) by (auto; lia); reflexivity).
  Qed.
  Lemma mem_limit_bit i : 0 <= i -> Z.testbit (Z.lor (byte_mask_update (w_limit o) 0xc d8 0xfff00000) 0xfffff) i = if i <? 32 then Z.testbit (w_limit w) i else Z.testbit (w_limit o) i.
  Proof.
    destruct Hw as (W1 & W2 & W3 & W4), Ho as (O1 & O2 & O3 & O4). intros Hi.
    change 0xc with (Z.shiftl (Z.ones 2) 2). change 0xfff00000 with (Z.shiftl (Z.ones (32 - 20)) 20). change 0xfffff with (Z.shiftl (Z.ones 20) 0).
    rewrite Z.lor_spec, bmu_rng, tb_run by lia.
    cases i; try lia; rewrite ?orb_true_r, ?orb_false_r; try reflexivity.
    all: try (rewrite d8_bit by lia; destruct (Z.ltb_spec i 16); [lia|]; destruct (Z.leb_spec 20 i); [|lia]; rewrite andb_true_r; f_equal; lia).
    all: try (rewrite (tb_low1 (w_limit w) 20) by (auto; lia); reflexivity).
  Qed.
End Mem.
Lemma mem_written w o : wf_win 32 20 w -> wf_win 32 20 o ->
  let d8 := hh (Z.land (Z.shiftr (w_base w) 16) 0xfff0) (Z.land (Z.shiftr (w_limit w) 16) 0xfff0) in
  byte_mask_update (w_base o) 0xc (Z.shiftl d8 16) 0xfff00000 = w_base w /\ Z.lor (byte_mask_update (w_limit o) 0xc d8 0xfff00000) 0xfffff = w_limit w.
Proof.
  intros W O d8. split; apply Z.bits_inj'; intros i Hi; [unfold d8; rewrite (mem_base_bit w o 32 W O) by lia|unfold d8; rewrite (mem_limit_bit w o 32 W O) by lia];
    destruct (Z.ltb_spec i 32); try reflexivity; destruct W as (W1 & W2 & W3 & W4), O as (O1 & O2 & O3 & O4).
  - rewrite (@testbit_small (w_base o) 32), (@testbit_small (w_base w) 32) by (auto; lia). reflexivity.
  - rewrite (@testbit_small (w_limit o) 32), (@testbit_small (w_limit w) 32) by (auto; lia). reflexivity.
Qed.
Lemma pf_written w o : wf_win 64 20 w -> wf_win 64 20 o ->
  let d8 := hh (Z.land (Z.shiftr (w_base w) 16) 0xfff0) (Z.land (Z.shiftr (w_limit w) 16) 0xfff0) in
  byte_of (byte_mask_update (w_base o) 0xc (Z.shiftl d8 16) 0xfff00000) 0xf0 (Z.shiftl (Z.shiftr (w_base w) 32) 32) = w_base w /\
  byte_of (Z.lor (byte_mask_update (w_limit o) 0xc d8 0xfff00000) 0xfffff) 0xf0 (Z.shiftl (Z.shiftr (w_limit w) 32) 32) = w_limit w.
Proof.
  intros W O d8. change 0xf0 with (Z.shiftl (Z.ones 4) 4). split; apply Z.bits_inj'; intros i Hi; rewrite byte_rng by lia;
    [unfold d8; rewrite (mem_base_bit w o 64 W O) by lia|unfold d8; rewrite (mem_limit_bit w o 64 W O) by lia];
    destruct W as (W1 & W2 & W3 & W4), O as (O1 & O2 & O3 & O4); cases i; try lia; try reflexivity;
    try (rewrite Z.shiftl_spec, Z.shiftr_spec by lia; f_equal; lia).
  - rewrite (@testbit_small (w_base o) 64), (@testbit_small (w_base w) 64) by (auto; lia). reflexivity.
  - rewrite (@testbit_small (w_limit o) 64), (@testbit_small (w_limit w) 64) by (auto; lia). reflexivity.
Qed.

Lemma set_windows_result io mem pf b : wf_win 32 12 io -> wf_win 32 20 mem -> wf_win 64 20 pf -> wf_bridge b ->
  set_windows io mem pf b = mkBr (b_bus b) (b_dev b) (b_sec b) (b_sub b) io mem pf.
Proof.
  intros Wi Wm Wp (_ & _ & Oi & Om & Op). destruct b as [bus dv sec sub oi om op]. cbn [b_bus b_dev b_sec b_sub b_io b_mem b_pf] in *.
  unfold set_windows, b_write.
  change (7 =? 6) with false; change (7 =? 7) with true; change (12 =? 6) with false; change (12 =? 7) with false; change (12 =? 8) with false; change (12 =? 9) with false;
  change (12 =? 10) with false; change (12 =? 11) with false; change (12 =? 12) with true; change (8 =? 6) with false; change (8 =? 7) with false; change (8 =? 8) with true;
  change (9 =? 6) with false; change (9 =? 7) with false; change (9 =? 8) with false; change (9 =? 9) with true; change (10 =? 6) with false; change (10 =? 7) with false;
  change (10 =? 8) with false; change (10 =? 9) with false; change (10 =? 10) with true; change (11 =? 6) with false; change (11 =? 7) with false; change (11 =? 8) with false;
  change (11 =? 9) with false; change (11 =? 10) with false; change (11 =? 11) with true. cbv iota beta.
  change (Z.shiftl (Z.land 3 1) 1) with 2. change (Z.land 3 2) with 2. change (Z.shiftl (Z.land 15 3) 2) with 0xc. change (Z.land 15 12) with 0xc. change (Z.shiftl 15 4) with 0xf0.
  cbn [w_base w_limit]. rewrite (io_base_written io oi Wi Oi), (io_limit_written io oi Wi Oi).
  destruct (mem_written mem om Wm Om) as (M1 & M2). rewrite M1, M2. destruct (pf_written pf op Wp Op) as (P1 & P2). rewrite P1, P2.
  destruct io, mem, pf. reflexivity.
Qed.
Lemma set_buses_result pri sec sub b : 0 <= pri < 256 -> 0 <= sec < 256 -> 0 <= sub < 256 -> 0 <= b_sec b < 256 -> 0 <= b_sub b < 256 ->
  set_buses pri sec sub b = mkBr (b_bus b) (b_dev b) sec sub (b_io b) (b_mem b) (b_pf b).
Proof.
  intros Hp Hs Hb Os Ob. destruct b as [bus dv osec osub oi om op]. cbn [b_bus b_dev b_sec b_sub b_io b_mem b_pf] in *. unfold set_buses, b_write.
  change (6 =? 6) with true. cbv iota. change (Z.land (Z.shiftr 7 1) 1) with (Z.shiftl (Z.ones 1) 0). change (Z.land (Z.shiftr 7 2) 1) with (Z.shiftl (Z.ones 1) 0).
  assert (B1 : forall i, 0 <= i < 8 -> Z.testbit (pri + 256 * sec + 65536 * sub) (i + 8) = Z.testbit sec i).
  { intros i Hi. replace (pri + 256 * sec + 65536 * sub) with (pri + 2 ^ 8 * (sec + 2 ^ 8 * sub)) by lia. rewrite tb_cat by lia.
    destruct (Z.ltb_spec (i + 8) 8); [lia|]. replace (i + 8 - 8) with i by lia. rewrite tb_cat by lia. destruct (Z.ltb_spec i 8); [reflexivity|lia]. }
  assert (B2 : forall i, 0 <= i < 8 -> Z.testbit (pri + 256 * sec + 65536 * sub) (i + 16) = Z.testbit sub i).
  { intros i Hi. replace (pri + 256 * sec + 65536 * sub) with (pri + 2 ^ 8 * (sec + 2 ^ 8 * sub)) by lia. rewrite tb_cat by lia.
    destruct (Z.ltb_spec (i + 16) 8); [lia|]. rewrite tb_cat by lia. destruct (Z.ltb_spec (i + 16 - 8) 8); [lia|]. f_equal. lia. }
  f_equal; apply Z.bits_inj'; intros i Hi; rewrite byte_rng by lia; cases i; try lia.
  - rewrite Z.shiftr_spec by lia. apply B1. lia.
  - rewrite (@testbit_small osec 8), (@testbit_small sec 8) by lia. reflexivity.
  - rewrite Z.shiftr_spec by lia. apply B2. lia.
  - rewrite (@testbit_small osub 8), (@testbit_small sub 8) by lia. reflexivity.
Qed.
