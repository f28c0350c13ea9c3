(** * One complete exchange by computation: key generation, encapsulation and
    PKE decryption with the smallest parameter set *)
From Coq Require Import ZArith List Bool.
From Verif Require Import CMonad Levels Model_Params Model_Indcpa Model_Kem.
Import ListNotations.
Open Scope Z_scope.

Definition demo_d : list Z := map Z.of_nat (seq 0 32).
Definition demo_z : list Z := map Z.of_nat (seq 32 32).
(** All message bits 1: the narrower of the two decoding windows everywhere *)
Definition demo_m : list Z := repeat 255 32.

Definition no_junk : Junk := fun _ => 0.

Definition on_ok {A} (m : res A) (f : A -> bool) : bool := match m with Ok v _ => f v | _ => false end.

(** The last byte changed by 16: the last coefficient of the second ciphertext
    component moves by one step, which does not change the decrypted message *)
Definition nudge (x : Z) : Z := if x <? 128 then x + 16 else x - 16.
Definition tampered (c : list Z) : list Z := removelast c ++ [nudge (last c 0)].

Definition demo_exchange : bool :=
  on_ok (@crypto_kem_keypair_derand no_junk Kyber512 2 (repeat 0 800) (repeat 0 1632) (demo_d ++ demo_z))
    (fun kp => on_ok (@crypto_kem_enc_derand no_junk Kyber512 2 (repeat 0 768) (repeat 0 32) (fst (fst kp)) demo_m)
      (fun e => on_ok (@indcpa_dec no_junk Kyber512 (repeat 0 32) 0 (fst (fst e)) 0 (snd (fst kp)) 0)
        (fun m => forallb (fun b => b =? 255) m &&
          on_ok (@indcpa_dec no_junk Kyber512 (repeat 0 32) 0 (tampered (fst (fst e))) 0 (snd (fst kp)) 0)
            (fun m => forallb (fun b => b =? 255) m)))).

Lemma demo_exchange_ok : demo_exchange = true.
Proof. vm_compute. reflexivity. Qed.
