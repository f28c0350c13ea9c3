(** * Vocabulary: what compression should write, and where each function writes it *)
From Coq Require Import ZArith List.
From Verif Require Import Spec_FIPS203 Model_Params Vocab.
Import ListNotations.
Open Scope Z_scope.

(** ByteEncode_d (Compress_d (a)), FIPS 203 (4.5), (4.7), for a polynomial given by any representatives *)
Definition right_poly (d : nat) (a : list Z) : list Z := ByteEncode d (map (Compress (Z.of_nat d)) (modq a)).

(** Largest coefficients for which ref/ is right (the smallest is -q) *)
Definition ref_v_max (lv : level) : Z := match lv with Kyber1024 => 6709 | _ => 13211 end.
Definition ref_u_max (lv : level) : Z := match lv with Kyber1024 => 3953 | _ => 5407 end.
(** Smallest and largest coefficients for which avx2/ is right *)
Definition avx_v_min (lv : level) : Z := match lv with Kyber1024 => -3380 | _ => -6761 end.
Definition avx_v_max (lv : level) : Z := match lv with Kyber1024 => 3380 | _ => 6761 end.
Definition avx_u_min (lv : level) : Z := match lv with Kyber1024 => -471 | _ => -420 end.
Definition avx_u_max (lv : level) : Z := match lv with Kyber1024 => 3953 | _ => 3749 end.
(** Bytes avx2/ writes after the compressed vector *)
Definition avx_slack (lv : level) : nat := match lv with Kyber1024 => 2 | _ => 0 end.
