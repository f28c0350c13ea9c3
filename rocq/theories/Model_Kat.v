(** * /repo/ref/nistkat/PQCgenKAT_kem.c: the known-answer-test generator

    A file is the list of its bytes; a file open for reading is what is left
    of it.  [fs] maps the name of a file to its contents and [opens c] tells
    whether the [c]-th fopen succeeds; reads and writes of open files do not
    fail.  The characters of a char array are given as unsigned values.
    stdout is not modelled.  crypto_kem_keypair and crypto_kem_enc are linked
    against the randombytes of rng.c, whose block cipher is the parameter [E];
    its unused return value is dropped. *)
From Coq Require Import ZArith List Bool Ascii String Decimal DecimalString.
From Verif Require Import CMonad Model_Params Model_Randombytes Model_Rng Model_Tests Vocab_Avx.
Import ListNotations.
Open Scope Z_scope.
Open Scope cmonad_scope.
Notation length := List.length.

Definition MAX_MARKER_LEN : nat := 50.
Definition EOF : Z := -1.
Definition KAT_SUCCESS : Z := 0.
Definition KAT_FILE_OPEN_ERROR : Z := -1.
Definition KAT_DATA_ERROR : Z := -3.
Definition KAT_CRYPTO_FAILURE : Z := -4.

(** %d *)
Definition print_int (x : Z) : list Z := str (NilZero.string_of_int (Z.to_int x)).

(** strncmp(a, b, n) == 0, from index [i] on *)
Fixpoint strncmp_equal (n i : nat) (a b : list Z) : res bool :=
  match n with
  | O => ret true
  | S n' =>
      x <- aget a i ;; y <- aget b i ;;
      if negb (x =? y) then ret false
      else if x =? 0 then ret true
      else strncmp_equal n' (S i) a b
  end.

Section WithJunk.
Context `{Junk}.

(** PQCgenKAT_kem.c:144-150; [None]: the end of the file was reached *)
Fixpoint fill_line (n i : nat) (line infile : list Z) : res (option (list Z) * list Z) :=
  match n with
  | O => _ <- test false ;; ret (Some line, infile)
  | S n' =>
      _ <- test true ;;
      match infile with
      | [] => line <- aset line i (u8 EOF) ;; _ <- test true ;; ret (None, [])
      | c :: infile => line <- aset line i (u8 c) ;; _ <- test false ;; fill_line n' (S i) line infile
      end
  end.
(** PQCgenKAT_kem.c:153-164; [marker] with its terminator *)
Fixpoint scan_marker (len : nat) (marker line infile : list Z) : res (Z * list Z) :=
  e <- strncmp_equal len 0 line marker ;;
  c <- test e ;;
  if (c : bool) then ret (1, infile)
  else
    line <- for_ (len - 1) 0 (fun i line => x <- aget line (i + 1)%nat ;; aset line i x) line ;;
    (** len = 0 would write line[-1] *)
    if (len =? 0)%nat then UB OutOfBounds
    else
      match infile with
      | [] => line <- aset line (len - 1) (u8 EOF) ;; _ <- test true ;; ret (0, [])
      | c :: infile =>
          line <- aset line (len - 1) (u8 c) ;; _ <- test false ;;
          line <- aset line len 0 ;;
          scan_marker len marker line infile
      end.
(** PQCgenKAT_kem.c:133-168; returns (return value, rest of the file) *)
Definition FindMarker (infile marker : list Z) : res (Z * list Z) :=
  let len := length marker in
  c <- test (MAX_MARKER_LEN - 1 <? len)%nat ;;
  let len := if (c : bool) then (MAX_MARKER_LEN - 1)%nat else len in
  '(line, infile) <- fill_line len 0 (local MAX_MARKER_LEN) infile ;;
  match line with
  | None => ret (0, infile)
  | Some line =>
      line <- aset line len 0 ;;
      scan_marker len (marker ++ [0]) line infile
  end.

Definition between (a b ch : Z) : bool := (a <=? ch) && (ch <=? b).
Definition isxdigit (ch : Z) : bool := between 48 57 ch || between 65 70 ch || between 97 102 ch.
(** PQCgenKAT_kem.c:186-210; returns (A, rest of the file) *)
Fixpoint read_digits (A : list Z) (Length : nat) (started : bool) (infile : list Z) : res (list Z * list Z) :=
  match infile with
  | [] => _ <- test false ;; ret (A, [])
  | ch :: infile =>
      _ <- test true ;;
      c <- test (negb (isxdigit ch)) ;;
      if (c : bool) then
        c <- test (negb started) ;;
        if (c : bool) then
          c <- test (ch =? 10) ;;
          if (c : bool) then ret (A, infile) else read_digits A Length started infile
        else ret (A, infile)
      else
        let ich := if between 48 57 ch then u8 (ch - 48)
                   else if between 65 70 ch then u8 (ch - 65 + 10)
                   else if between 97 102 ch then u8 (ch - 97 + 10)
                   else 0 in
        A <- for_ (Length - 1) 0 (fun i A =>
               a <- aget A i ;; b <- aget A (i + 1)%nat ;;
               aset A i (u8 (Z.lor (Z.shiftl a 4) (Z.shiftr b 4)))) A ;;
        a <- aget A (Length - 1)%nat ;;
        A <- aset A (Length - 1)%nat (u8 (Z.lor (Z.shiftl a 4) ich)) ;;
        read_digits A Length true infile
  end.
(** PQCgenKAT_kem.c:173-215, for Length >= 0; returns (A, rest of the file, return value) *)
Definition ReadHex (infile A : list Z) (Length : nat) (label : list Z) : res (list Z * list Z * Z) :=
  c <- test (Length =? 0)%nat ;;
  if (c : bool) then
    A <- aset A 0 0 ;; ret (A, infile, 1)
  else
    A <- zero A 0 Length ;;
    '(m, infile) <- FindMarker infile label ;;
    c <- test (negb (m =? 0)) ;;
    if (c : bool) then
      '(A, infile) <- read_digits A Length false infile ;;
      ret (A, infile, 1)
    else ret (A, infile, 0).

(** PQCgenKAT_kem.c:217-231; returns what is written *)
Definition fprintBstr (label A : list Z) (L : nat) : res (list Z) :=
  out <- for_ L 0 (fun i out => x <- aget A i ;; ret (out ++ hex_upper x)) label ;;
  c <- test (L =? 0)%nat ;;
  let out := if (c : bool) then out ++ str "00" else out in
  ret (out ++ [newline]).

(** fscanf with %d: white space, an optional sign, digits.  [None]: no digit
    was found and nothing is assigned.  A value that is not an int is undefined. *)
Definition isspace (c : Z) : bool := between 9 13 c || (c =? 32).
Fixpoint skip_space (infile : list Z) : list Z :=
  match infile with
  | c :: rest => if isspace c then skip_space rest else infile
  | [] => []
  end.
Fixpoint read_decimal (acc : option Z) (infile : list Z) : option Z * list Z :=
  match infile with
  | c :: rest =>
      if between 48 57 c then read_decimal (Some (10 * match acc with Some a => a | None => 0 end + (c - 48))) rest
      else (acc, infile)
  | [] => (acc, [])
  end.
Definition scan_int (infile : list Z) : res (option Z * list Z) :=
  let infile := skip_space infile in
  let '(sign, infile) := match infile with
                         | c :: rest => if c =? 45 then (-1, rest) else if c =? 43 then (1, rest) else (1, infile)
                         | [] => (1, [])
                         end in
  match read_decimal None infile with
  | (None, rest) => ret (None, rest)
  | (Some v, rest) => v <- chk_int (sign * v) ;; ret (Some v, rest)
  end.

Section Program.
Variable E : list Z -> list Z -> list Z.
Variable lv : level.
Variable fuel : nat.

(** kem.h:8-18 *)
Definition CRYPTO_ALGNAME : list Z :=
  match lv with Kyber512 => str "Kyber512" | Kyber768 => str "Kyber768" | Kyber1024 => str "Kyber1024" end.

Definition kat_randombytes (d : drbg_ctx) (x : list Z) (off len : nat) : res (list Z * drbg_ctx) :=
  '(x, d, _) <- drbg_randombytes E d x off (Z.of_nat len) ;; ret (x, d).

(** PQCgenKAT_kem.c:54-62, [n] of the 100 rounds left; returns what is written, seed and DRBG_ctx *)
Fixpoint requests (n i : nat) (out seed : list Z) (d : drbg_ctx) : res (list Z * list Z * drbg_ctx) :=
  match n with
  | O => _ <- test false ;; ret (out, seed, d)
  | S n' =>
      _ <- test true ;;
      let out := out ++ str "count = " ++ print_int (Z.of_nat i) ++ [newline] in
      '(seed, d) <- kat_randombytes d seed 0 48 ;;
      bs <- fprintBstr (str "seed = ") seed 48 ;;
      let out := out ++ bs in
      let out := out ++ str "pk =" ++ [newline] in
      let out := out ++ str "sk =" ++ [newline] in
      let out := out ++ str "ct =" ++ [newline] in
      let out := out ++ str "ss =" ++ [newline; newline] in
      requests n' (S i) out seed d
  end.

(** PQCgenKAT_kem.c:73-117; returns (exit status, what is written).  Each round
    reads some of the file; [n] bounds their number. *)
Fixpoint respond (n : nat) (JJ : nat -> nat -> Junk) (infile out : list Z) (d : drbg_ctx) (count : Z)
  (seed pk sk ct ss ss1 : list Z) : res (Z * list Z) :=
  match n with
  | O => Timeout
  | S n' =>
      '(m, infile) <- FindMarker infile (str "count = ") ;;
      c <- test (negb (m =? 0)) ;;
      if negb c then ret (KAT_SUCCESS, out)
      else
        '(v, infile) <- scan_int infile ;;
        let count := match v with Some x => x | None => count end in
        let out := out ++ str "count = " ++ print_int count ++ [newline] in
        '(seed, infile, r) <- ReadHex infile seed 48 (str "seed = ") ;;
        c <- test (r =? 0) ;;
        if (c : bool) then ret (KAT_DATA_ERROR, out)
        else
          bs <- fprintBstr (str "seed = ") seed 48 ;;
          let out := out ++ bs in
          d <- randombytes_init E d seed None ;;
          '(pk, sk, r, d) <- keypair_with kat_randombytes Reference lv fuel (JJ n 0%nat) d pk sk ;;
          c <- test (negb (r =? 0)) ;;
          if (c : bool) then ret (KAT_CRYPTO_FAILURE, out)
          else
            bs <- fprintBstr (str "pk = ") pk (KYBER_PUBLICKEYBYTES lv) ;;
            let out := out ++ bs in
            bs <- fprintBstr (str "sk = ") sk (KYBER_SECRETKEYBYTES lv) ;;
            let out := out ++ bs in
            '(ct, ss, r, d) <- enc_with kat_randombytes Reference lv fuel (JJ n 1%nat) d ct ss pk ;;
            c <- test (negb (r =? 0)) ;;
            if (c : bool) then ret (KAT_CRYPTO_FAILURE, out)
            else
              bs <- fprintBstr (str "ct = ") ct (KYBER_CIPHERTEXTBYTES lv) ;;
              let out := out ++ bs in
              bs <- fprintBstr (str "ss = ") ss KYBER_SSBYTES ;;
              let out := out ++ bs in
              let out := out ++ [newline] in
              '(ss1, r) <- dec_of Reference (JJ n 2%nat) lv fuel ss1 ct sk ;;
              c <- test (negb (r =? 0)) ;;
              if (c : bool) then ret (KAT_CRYPTO_FAILURE, out)
              else
                e <- memcmp ss ss1 KYBER_SSBYTES ;;
                c <- test (negb (e =? 0)) ;;
                if (c : bool) then ret (KAT_CRYPTO_FAILURE, out)
                else respond n' JJ infile out d count seed pk sk ct ss ss1
  end.

(** sprintf and the name held by a buffer *)
Definition sprintf (buf s : list Z) : res (list Z) := kernel_write buf 0 (s ++ [0]).
Fixpoint c_string (buf : list Z) : list Z :=
  match buf with
  | c :: buf => if c =? 0 then [] else c :: c_string buf
  | [] => []
  end.
Definition files := list Z -> list Z.
Definition put (fs : files) (name contents : list Z) : files :=
  fun x => if list_eq_dec Z.eq_dec x name then contents else fs x.

(** PQCgenKAT_kem.c:25-123 with [rounds] for 100; returns (exit status, files) *)
Definition kat_main (rounds : nat) (opens : nat -> bool) (JJ : nat -> nat -> Junk) (fs : files) (d : drbg_ctx) : res (Z * files) :=
  fn_req <- sprintf (@local (JJ 0 0)%nat 32) (str "PQCkemKAT_" ++ print_int (Z.of_nat (KYBER_SECRETKEYBYTES lv)) ++ str ".req") ;;
  c <- test (negb (opens 0%nat)) ;;
  if (c : bool) then ret (KAT_FILE_OPEN_ERROR, fs)
  else
    let fs := put fs (c_string fn_req) [] in
    fn_rsp <- sprintf (@local (JJ 0 1)%nat 32) (str "PQCkemKAT_" ++ print_int (Z.of_nat (KYBER_SECRETKEYBYTES lv)) ++ str ".rsp") ;;
    c <- test (negb (opens 1%nat)) ;;
    if (c : bool) then ret (KAT_FILE_OPEN_ERROR, fs)
    else
      let fs := put fs (c_string fn_rsp) [] in
      entropy_input <- for_ 48 0 (fun i e => aset e i (u8 (Z.of_nat i))) (@local (JJ 0 2)%nat 48) ;;
      d <- randombytes_init E d entropy_input None ;;
      '(out, seed, d) <- requests rounds 0 (fs (c_string fn_req)) (@local (JJ 0 3)%nat 48) d ;;
      let fs := put fs (c_string fn_req) out in
      c <- test (negb (opens 2%nat)) ;;
      if (c : bool) then ret (KAT_FILE_OPEN_ERROR, fs)
      else
        let infile := fs (c_string fn_req) in
        let out := fs (c_string fn_rsp) ++ str "# " ++ CRYPTO_ALGNAME ++ [newline; newline] in
        '(r, out) <- respond (S (length infile)) JJ infile out d (@junk (JJ 0 4)%nat 0) seed
          (pk_ lv (JJ 0 5)%nat) (sk_ lv (JJ 0 6)%nat) (ct_ lv (JJ 0 7)%nat) (ss_ (JJ 0 8)%nat) (ss_ (JJ 0 9)%nat) ;;
        ret (r, put fs (c_string fn_rsp) out).
End Program.
End WithJunk.
