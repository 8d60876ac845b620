(** * Properties C01-C03: the checksum *)
From Verif Require Import Base Checksum Spec Lib ChecksumProofs CrcErrorProofs CrcExact.
Local Open Scope N_scope.

(** ** C01.  The checksum is the remainder of the polynomial division, which
    determines it completely. *)
Theorem C01_checksum_is_the_protocol_crc : forall initial data, initial < 2 ^ 16 ->
  forall c, is_crc16 initial data c <-> c = calculate_checksum initial data.
Proof. exact checksum_iff_crc16. Qed.
Print Assumptions C01_checksum_is_the_protocol_crc.

(** The table index computed from any register value and byte is within the
    256 entries of the table. *)
Theorem C01_table_index_in_bounds : forall s b, s < 2 ^ 16 ->
  (N.to_nat (checksum_index s b) < length TABLE)%nat.
Proof. exact checksum_index_in_range. Qed.
Print Assumptions C01_table_index_in_bounds.

(** The check packet of the protocol documentation (ping of motor 1). *)
Example C01_example : 0 < 2 ^ 16 /\
  calculate_checksum 0 [xff; xff; xfd; x00; x01; x03; x00; x01] = 0x4E19.
Proof. split; reflexivity. Qed.

(** ** C02 *)
Theorem C02_checksum_piecewise : forall initial a b,
  calculate_checksum initial (a ++ b) = calculate_checksum (calculate_checksum initial a) b.
Proof. exact checksum_piecewise. Qed.
Print Assumptions C02_checksum_piecewise.

Example C02_example :
  calculate_checksum 0 ([xff; xff; xfd; x00] ++ [x01; x03; x00; x01]) = 0x4E19 /\
  calculate_checksum 0 [xff; xff; xfd; x00] <> 0.
Proof. split; [reflexivity|discriminate]. Qed.

(** ** C03 *)
Theorem C03_detects_odd_number_of_flips : forall initial a b,
  initial < 2 ^ 16 -> length a = length b ->
  Nat.odd (weight (diff_bits a b)) = true ->
  calculate_checksum initial a <> calculate_checksum initial b.
Proof. exact C03_odd. Qed.
Print Assumptions C03_detects_odd_number_of_flips.

Theorem C03_detects_two_flips : forall initial a b i j,
  initial < 2 ^ 16 -> length a = length b ->
  weight (diff_bits a b) = 2%nat ->
  nth i (diff_bits a b) false = true -> nth j (diff_bits a b) false = true ->
  (i < j)%nat -> N.of_nat (j - i) < 32767 ->
  calculate_checksum initial a <> calculate_checksum initial b.
Proof. exact C03_two. Qed.
Print Assumptions C03_detects_two_flips.

Theorem C03_detects_bursts : forall initial a b,
  initial < 2 ^ 16 -> length a = length b ->
  burst 16 (diff_bits a b) ->
  calculate_checksum initial a <> calculate_checksum initial b.
Proof. exact C03_burst. Qed.
Print Assumptions C03_detects_bursts.

(** The two-bit bound is exact: flipping two bits 32767 apart goes unnoticed. *)
Theorem C03_two_flips_bound_is_exact :
  exists a b i j, length a = length b /\ weight (diff_bits a b) = 2%nat /\
    nth i (diff_bits a b) false = true /\ nth j (diff_bits a b) false = true /\
    (i < j)%nat /\ N.of_nat (j - i) = 32767 /\
    calculate_checksum 0 a = calculate_checksum 0 b.
Proof. exact C03_two_exact. Qed.
Print Assumptions C03_two_flips_bound_is_exact.

(** Exactly which changes go unnoticed: those whose difference, as a polynomial,
    is a multiple of the generator. *)
Theorem C03_exactly_overlooked : forall initial a b,
  initial < 2 ^ 16 -> length a = length b ->
  (calculate_checksum initial a = calculate_checksum initial b <->
   exists q, N.lxor (poly_of a) (poly_of b) = clmul q crc_poly).
Proof. exact L_C03_exactly_overlooked. Qed.
Print Assumptions C03_exactly_overlooked.

(** Of two flipped bits: those at a distance that is a multiple of 32767. *)
Theorem C03_two_flips_exactly : forall initial a b i j,
  initial < 2 ^ 16 -> length a = length b ->
  weight (diff_bits a b) = 2%nat ->
  nth i (diff_bits a b) false = true -> nth j (diff_bits a b) false = true ->
  (i < j)%nat ->
  (calculate_checksum initial a = calculate_checksum initial b <-> N.of_nat (j - i) mod 32767 = 0).
Proof. exact L_C03_two_flips_exactly. Qed.
Print Assumptions C03_two_flips_exactly.

(** Of the bursts of at most 17 bits: the generator itself, and nothing else. *)
Theorem C03_bursts_of_17 : forall initial a b m k,
  initial < 2 ^ 16 -> length a = length b ->
  N.lxor (poly_of a) (poly_of b) = m * 2 ^ k -> 0 < m < 2 ^ 17 ->
  (calculate_checksum initial a = calculate_checksum initial b <-> m = crc_poly).
Proof. exact L_C03_bursts_of_17. Qed.
Print Assumptions C03_bursts_of_17.

(** The generator 0x18005, shifted by three bits, is such a burst. *)
Example C03_exactly_example :
  N.lxor (poly_of [x01; x0c; x00; x28; x07]) (poly_of [x01; x00; x00; x00; x07]) = crc_poly * 2 ^ 11 /\
  calculate_checksum 0 [x01; x0c; x00; x28; x07] = calculate_checksum 0 [x01; x00; x00; x00; x07] /\
  N.lxor (poly_of [x01; x0c; x00; x20; x07]) (poly_of [x01; x00; x00; x00; x07]) = 0x18004 * 2 ^ 11 /\
  calculate_checksum 0 [x01; x0c; x00; x20; x07] <> calculate_checksum 0 [x01; x00; x00; x00; x07].
Proof. repeat split; discriminate || (vm_compute; discriminate) || (vm_compute; reflexivity). Qed.

Example C03_example :
  weight (diff_bits [x01; x80; x07] [x00; x00; x07]) = 2%nat /\
  nth 7 (diff_bits [x01; x80; x07] [x00; x00; x07]) false = true /\
  nth 8 (diff_bits [x01; x80; x07] [x00; x00; x07]) false = true /\
  Nat.odd (weight (diff_bits [x07] [x00])) = true /\
  burst 16 (diff_bits [x01; x80; x07] [x00; x00; x07]).
Proof. exact C03_example_holds. Qed.
