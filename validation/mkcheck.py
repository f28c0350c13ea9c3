# Write a Coq file checking that the model of test_vectors.c prints the first test vector.
# usage: mkcheck.py Reference|Avx2 > TV.v ; coqc -Q ../rocq/theories Verif TV.v
import subprocess,sys,os
V=sys.argv[1]; here=os.path.dirname(os.path.abspath(__file__))
print('From Coq Require Import ZArith List.\nFrom Verif Require Import CMonad Model_Params Model_Tests Vocab_Avx Run_Kem.\nImport ListNotations.\nOpen Scope Z_scope.')
for k,L in ((2,'Kyber512'),(3,'Kyber768'),(4,'Kyber1024')):
    o=subprocess.run([sys.executable,os.path.join(here,'mlkem.py'),str(k),'1','dump'],capture_output=True).stdout
    o=b''.join(x+b'\n' for x in o.split(b'\n')[:-2])
    print('Definition e%d : list Z := [%s].'%(k,';'.join(map(str,o))))
    print('Goal match test_vectors_main shake_randombytes %s %s 20 1 (fun _ _ => no_junk) rngstate with Ok (o, r, _) _ => o = e%d /\\ r = 0 | _ => False end.\nProof. vm_compute. split; reflexivity. Qed.'%(V,L,k))
