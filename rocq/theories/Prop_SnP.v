(** * C80-C82: the four-way Keccak state interface *)
From Coq Require Import ZArith List Lia.
From Verif Require Import CMonad Model_AvxKeccak Model_AvxSnP Vocab Vocab_Four Vocab_SnP Spec_FIPS202 Proof_SnPPermute Proof_PropSnP.
Import ListNotations.
Open Scope Z_scope.

(** ** C80: bytes of one instance *)
Theorem C80_InitializeAll : exists T, forall st, length st = 800%nat ->
  InitializeAll st = Ok (packed (repeat (repeat 0 200) 4)) T.
Proof. exact snp_initialize. Qed.
Print Assumptions C80_InitializeAll.

Theorem C80_AddByte : forall inst off, (inst < 4)%nat -> (off < 200)%nat -> exists T, forall S v,
  four_states S -> 0 <= v <= 255 ->
  AddByte (packed S) inst v off = Ok (packed (with_instance S inst (add_at (nth inst S []) off [v]))) T.
Proof. exact snp_add_byte. Qed.
Print Assumptions C80_AddByte.

Theorem C80_AddBytes : forall inst off len, (inst < 4)%nat -> (off + len <= 200)%nat -> exists T, forall S data a,
  four_states S -> all_bytes data -> (len <= length data)%nat -> lanes_at_multiple_of_8 a off len ->
  AddBytes (packed S) inst data a off len =
    Ok (packed (with_instance S inst (add_at (nth inst S []) off (firstn len data)))) T.
Proof. exact snp_add_bytes. Qed.
Print Assumptions C80_AddBytes.

Theorem C80_OverwriteBytes : forall inst off len, (inst < 4)%nat -> (off + len <= 200)%nat -> exists T, forall S data a,
  four_states S -> all_bytes data -> (len <= length data)%nat -> lanes_at_multiple_of_8 a off len ->
  OverwriteBytes (packed S) inst data a off len =
    Ok (packed (with_instance S inst (put_at (nth inst S []) off (firstn len data)))) T.
Proof. exact snp_overwrite_bytes. Qed.
Print Assumptions C80_OverwriteBytes.

Theorem C80_OverwriteWithZeroes : forall inst len, (inst < 4)%nat -> (len <= 200)%nat -> exists T, forall S,
  four_states S ->
  OverwriteWithZeroes (packed S) inst len =
    Ok (packed (with_instance S inst (put_at (nth inst S []) 0 (repeat 0 len)))) T.
Proof. exact snp_overwrite_zeroes. Qed.
Print Assumptions C80_OverwriteWithZeroes.

Theorem C80_ExtractBytes : forall inst off len, (inst < 4)%nat -> (off + len <= 200)%nat -> exists T, forall S data a,
  four_states S -> (len <= length data)%nat -> lanes_at_multiple_of_8 a off len ->
  ExtractBytes (packed S) inst data a off len = Ok (put_at data 0 (bytes_at (nth inst S []) off len)) T.
Proof. exact snp_extract_bytes. Qed.
Print Assumptions C80_ExtractBytes.

(** Input and output in one memory m: apart, the same, or the output lower. *)
Theorem C80_ExtractAndAddBytes : forall inst io oo off len,
  (inst < 4)%nat -> (off + len <= 200)%nat -> (oo <= io \/ io + len <= oo)%nat -> exists T, forall S m a,
  four_states S -> all_bytes m -> (io + len <= length m)%nat -> (oo + len <= length m)%nat ->
  lanes_at_multiple_of_8 (a + Z.of_nat io) off len -> lanes_at_multiple_of_8 (a + Z.of_nat oo) off len ->
  ExtractAndAddBytes (packed S) inst m a io oo off len =
    Ok (put_at m oo (xor_lists (bytes_at m io len) (bytes_at (nth inst S []) off len))) T.
Proof. exact snp_extract_add_bytes. Qed.
Print Assumptions C80_ExtractAndAddBytes.

(** A buffer at an address divisible by 8 is not enough: with an offset that is
    not a multiple of 8 the function reads whole words at odd addresses. *)
Theorem C80_aligned_buffer_refuted : exists S data a inst off len,
  four_states S /\ byte_array len data /\ (inst < 4)%nat /\ (off + len <= 200)%nat /\ a mod 8 = 0 /\
  AddBytes (packed S) inst data a off len = UB Misaligned.
Proof. exact misaligned. Qed.
Print Assumptions C80_aligned_buffer_refuted.

(** Bytes 5 .. 25 of instance 2; the buffer starts at address 5, so that byte 8
    of the state is at address 8. *)
Example C80_case :
  let data := map (fun i => Z.of_nat (100 + i)) (seq 0 21) in
  four_states sample_states /\ all_bytes data /\ lanes_at_multiple_of_8 5 5 21 /\
  match AddBytes (packed sample_states) 2 data 5 5 21 with
  | Ok v _ => map (fun p => nth p v 0) [16 + 4; 16 + 5; 8 + 5; 16 + 7; 32 + 16; 96 + 16 + 1; 96 + 16 + 2]%nat =
              [112; Z.lxor 115 100; 65; Z.lxor 121 102; Z.lxor 124 103; Z.lxor 175 120; 178]
  | _ => False
  end.
Proof.
  cbv zeta. split; [exact sample_states_ok|]. split; [apply all_bytes_dec; reflexivity|].
  split; [intros _; reflexivity|]. vm_compute. reflexivity.
Qed.

(** The same bytes read back, and combined with a buffer. *)
Example C80_extract_case :
  lanes_at_multiple_of_8 5 5 21 /\
  match ExtractBytes (packed sample_states) 2 (repeat 9 24) 5 5 21 with
  | Ok v _ => v = map (fun i => Z.of_nat (115 + 3 * i)) (seq 0 21) ++ [9; 9; 9]
  | _ => False
  end /\
  match ExtractAndAddBytes (packed sample_states) 2 (repeat 9 24) 5 0 0 5 21 with
  | Ok v _ => v = map (fun i => Z.lxor 9 (Z.of_nat (115 + 3 * i))) (seq 0 21) ++ [9; 9; 9]
  | _ => False
  end.
Proof. split; [intros _; reflexivity|]. split; vm_compute; reflexivity. Qed.

(** ** C81: lanes of all instances *)
Theorem C81_AddLanesAll : forall o lc stride, (lc <= 25)%nat -> 24 * Z.of_nat stride < 2 ^ 32 -> exists T, forall S data a,
  four_states S -> all_bytes data -> (o + 24 * stride + 8 * lc <= length data)%nat -> (a + Z.of_nat o) mod 8 = 0 ->
  AddLanesAll (packed S) data a o lc stride =
    Ok (packed (each_instance (fun j s => add_at s 0 (bytes_at data (o + 8 * stride * j) (8 * lc))) S)) T.
Proof. exact snp_add_lanes. Qed.
Print Assumptions C81_AddLanesAll.

Theorem C81_OverwriteLanesAll : forall lc stride, (lc <= 25)%nat -> 24 * Z.of_nat stride < 2 ^ 32 -> exists T, forall S data a,
  four_states S -> all_bytes data -> (24 * stride + 8 * lc <= length data)%nat -> a mod 8 = 0 ->
  OverwriteLanesAll (packed S) data a lc stride =
    Ok (packed (each_instance (fun j s => put_at s 0 (bytes_at data (8 * stride * j) (8 * lc))) S)) T.
Proof. exact snp_overwrite_lanes. Qed.
Print Assumptions C81_OverwriteLanesAll.

(** The pieces do not overlap: lc <= stride. *)
Theorem C81_ExtractLanesAll : forall lc stride, (lc <= 25)%nat -> (lc <= stride)%nat -> 24 * Z.of_nat stride < 2 ^ 32 ->
  exists T, forall S data a,
  four_states S -> all_bytes data -> (24 * stride + 8 * lc <= length data)%nat -> a mod 8 = 0 ->
  ExtractLanesAll (packed S) data a lc stride = Ok (put_strips data 0 stride (map (firstn (8 * lc)) S)) T.
Proof. exact snp_extract_lanes. Qed.
Print Assumptions C81_ExtractLanesAll.

(** Input and output in one memory m: the same or apart. *)
Theorem C81_ExtractAndAddLanesAll : forall io oo lc stride,
  (lc <= 25)%nat -> (lc <= stride)%nat -> 24 * Z.of_nat stride < 2 ^ 32 ->
  (io = oo \/ io + (24 * stride + 8 * lc) <= oo \/ oo + (24 * stride + 8 * lc) <= io)%nat -> exists T, forall S m a,
  four_states S -> all_bytes m -> (io + (24 * stride + 8 * lc) <= length m)%nat -> (oo + (24 * stride + 8 * lc) <= length m)%nat ->
  (a + Z.of_nat io) mod 8 = 0 -> (a + Z.of_nat oo) mod 8 = 0 ->
  ExtractAndAddLanesAll (packed S) m a io oo lc stride =
    Ok (put_strips m oo stride
         (each_instance (fun j s => xor_lists (bytes_at m (io + 8 * stride * j) (8 * lc)) (firstn (8 * lc) s)) S)) T.
Proof. exact snp_extract_add_lanes. Qed.
Print Assumptions C81_ExtractAndAddLanesAll.

(** The distances are products of type unsigned int: with a stride of 2^29 lanes
    all of them wrap around to 0, and the first piece goes to every instance. *)
Theorem C81_wide_stride : forall lc, (lc <= 25)%nat -> exists T, forall S data a,
  four_states S -> all_bytes data -> (8 * lc <= length data)%nat -> a mod 8 = 0 ->
  AddLanesAll (packed S) data a 0 lc (Z.to_nat (2 ^ 29)) =
    Ok (packed (each_instance (fun _ s => add_at s 0 (bytes_at data 0 (8 * lc))) S)) T.
Proof. exact wide_stride. Qed.
Print Assumptions C81_wide_stride.

(** Seventeen lanes, pieces twenty lanes apart: sixteen through the transposition
    and one through the gather load. *)
Example C81_case :
  let data := map (fun i => Z.of_nat i mod 251) (seq 0 616) in
  (17 <= 25)%nat /\ (17 <= 20)%nat /\ all_bytes data /\ (24 * 20 + 8 * 17 <= length data)%nat /\
  match AddLanesAll (packed sample_states) data 0 0 17 20 with
  | Ok v _ => map (fun p => nth p v 0) [0; 8; 32 + 16 + 3; 32 * 16 + 24; 32 * 17]%nat =
              [0; Z.lxor 50 160; Z.lxor 133 80; Z.lxor 22 106; 152]
  | _ => False
  end /\
  match ExtractLanesAll (packed sample_states) data 0 17 20 with
  | Ok v _ => map (fun p => nth p v 0) [1; 135; 136; 160; 320 + 11; 480 + 128; 480 + 135]%nat = [3; 149; 136; 50; 133; 22; 43]
  | _ => False
  end.
Proof.
  cbv zeta. split; [lia|]. split; [lia|]. split; [apply all_bytes_dec; vm_compute; reflexivity|].
  split; [apply Nat.leb_le; vm_compute; reflexivity|]. split; vm_compute; reflexivity.
Qed.

(** ** C82: the permutations and the absorbing loops *)
Theorem C82_PermuteAll_24rounds : exists T, forall (J : Junk) S, four_states S ->
  PermuteAll_24rounds (packed S) = Ok (packed (map (permute_bytes 24) S)) T.
Proof. exact snp_permute24. Qed.
Print Assumptions C82_PermuteAll_24rounds.

Theorem C82_PermuteAll_12rounds : exists T, forall (J : Junk) S, four_states S ->
  PermuteAll_12rounds (packed S) = Ok (packed (map (permute_bytes 12) S)) T.
Proof. exact snp_permute12. Qed.
Print Assumptions C82_PermuteAll_12rounds.

(** The permutation of 24 rounds is the Keccak-f[1600] of the other properties. *)
Example C82_keccak_p_24 : forall s, keccak_p 24 s = keccak_f s.
Proof. exact keccak_p_24. Qed.

Theorem C82_FastLoop_Absorb : forall lc par ser len fuel,
  (lc <= 25)%nat -> (0 < ser <= 3 * par + lc)%nat -> Z.of_nat (block_span lc par) < 2 ^ 32 -> 0 <= len < 2 ^ 64 ->
  (blocks_taken lc par ser len < fuel)%nat -> exists T, forall (J : Junk) S data a,
  four_states S -> all_bytes data -> len <= Z.of_nat (length data) ->
  (lc = 21%nat -> (24 * par + 8 * (blocks_taken lc par ser len * ser) <= length data)%nat) -> a mod 8 = 0 ->
  FastLoop_Absorb fuel (packed S) lc par ser data a len =
    Ok (packed (each_instance (absorbed 24 lc par ser (blocks_taken lc par ser len) data) S),
        (8 * (blocks_taken lc par ser len * ser))%nat) T.
Proof. exact (snp_fast_loop rounds24 24 prog24). Qed.
Print Assumptions C82_FastLoop_Absorb.

Theorem C82_FastLoop_Absorb_12rounds : forall lc par ser len fuel,
  (lc <= 25)%nat -> (0 < ser <= 3 * par + lc)%nat -> Z.of_nat (block_span lc par) < 2 ^ 32 -> 0 <= len < 2 ^ 64 ->
  (blocks_taken lc par ser len < fuel)%nat -> exists T, forall (J : Junk) S data a,
  four_states S -> all_bytes data -> len <= Z.of_nat (length data) ->
  (lc = 21%nat -> (24 * par + 8 * (blocks_taken lc par ser len * ser) <= length data)%nat) -> a mod 8 = 0 ->
  FastLoop_Absorb_12rounds fuel (packed S) lc par ser data a len =
    Ok (packed (each_instance (absorbed 12 lc par ser (blocks_taken lc par ser len) data) S),
        (8 * (blocks_taken lc par ser len * ser))%nat) T.
Proof. exact (snp_fast_loop rounds12 12 prog12). Qed.
Print Assumptions C82_FastLoop_Absorb_12rounds.

(** Each condition is needed.  laneOffsetSerial = 0 with enough data: no end. *)
Theorem C82_no_progress : forall (J : Junk) fuel S lc par data a len,
  four_states S -> all_bytes data -> (lc <= 25)%nat -> Z.of_nat (block_span lc par) < 2 ^ 32 ->
  Z.of_nat (block_span lc par) <= len -> len <= Z.of_nat (length data) -> len < 2 ^ 64 -> a mod 8 = 0 ->
  FastLoop_Absorb fuel (packed S) lc par 0 data a len = Timeout.
Proof. exact (fast_loop_stuck rounds24 24 prog24). Qed.
Print Assumptions C82_no_progress.

(** laneOffsetSerial larger than the span of a block: dataByteLen wraps around
    and the loop runs on behind the end of the data. *)
Theorem C82_wrap : forall (J : Junk) fuel S data a, four_states S -> byte_array 600 data -> a mod 8 = 0 ->
  FastLoop_Absorb (Datatypes.S (Datatypes.S fuel)) (packed S) 17 17 69 data a 544 = UB OutOfBounds.
Proof. exact (fast_loop_wrap rounds24 24 prog24). Qed.
Print Assumptions C82_wrap.

(** Four blocks of 21 lanes side by side in a buffer that holds nothing else:
    after the block the pointers of instances 1 to 3 lie beyond its end. *)
Theorem C82_exact_buffer : forall (J : Junk) fuel S data a, four_states S -> byte_array 672 data -> a mod 8 = 0 ->
  FastLoop_Absorb (Datatypes.S fuel) (packed S) 21 21 84 data a 672 = UB OutOfBounds.
Proof. exact (fast_loop_exact rounds24 24 prog24). Qed.
Print Assumptions C82_exact_buffer.

Theorem C82_exact_buffer_refuted : exists (J : Junk) fuel S data a lc par ser len,
  four_states S /\ byte_array len data /\ a mod 8 = 0 /\ (lc <= 25)%nat /\ (0 < ser <= 3 * par + lc)%nat /\
  (blocks_taken lc par ser (Z.of_nat len) < fuel)%nat /\ len = block_span lc par /\
  FastLoop_Absorb fuel (packed S) lc par ser data a (Z.of_nat len) = UB OutOfBounds.
Proof. exact exact_buffer. Qed.
Print Assumptions C82_exact_buffer_refuted.

(** Blocks of 17 lanes side by side, three rounds of them and 100 bytes left over. *)
Example C82_case :
  blocks_taken 17 17 68 (3 * 544 + 100) = 3%nat /\ (17 <= 25)%nat /\ (0 < 68 <= 3 * 17 + 17)%nat /\
  Z.of_nat (block_span 17 17) < 2 ^ 32 /\
  exists T, forall (J : Junk),
    FastLoop_Absorb 4 (packed sample_states) 17 17 68 (repeat 7 1732) 0 (3 * 544 + 100) =
    Ok (packed (map (fun s => let p s := permute_bytes 24 (add_at s 0 (repeat 7 136)) in p (p (p s))) sample_states), 1632%nat) T.
Proof. exact fast_loop_case. Qed.
