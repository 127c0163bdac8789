(** Model of oauth1-request/src/util/percent_encoding.rs. *)
From Coq Require Import String.
From Verif Require Import Bytes MFmt.

(** percent_encoding.rs:15 [BITS_PER_BLOCK] (u32 blocks). *)
Definition BITS_PER_BLOCK : N := 32.

(** percent_encoding.rs:21 [ENCODE_MAP]. *)
Definition ENCODE_MAP : list N := [0xFFFFFFFF; 0xFC009FFF; 0x78000001; 0xB8000001]%N.

(** percent_encoding.rs:113-117 [get_bit].  Indexing out of range would panic. *)
Definition get_bit (bits : list N) (i : N) : res bool :=
  match nth_error bits (N.to_nat (i / BITS_PER_BLOCK)) with
  | None => Panic PIndex
  | Some block =>
      let mask := N.shiftl 1 (i mod BITS_PER_BLOCK) in
      Ok (negb (N.eqb (N.land block mask) 0))
  end.

(** [u8::is_ascii]
    (percent_encoding.rs:110) *)
Definition is_ascii (b : byte) : bool := N.ltb (bn b) 128.

(** percent_encoding.rs:109-111 [should_percent_encode]: [||] is short-circuiting. *)
Definition should_percent_encode (b : byte) : res bool :=
  if negb (is_ascii b) then Ok true else get_bit ENCODE_MAP (bn b).

(** percent_encoding.rs:87-104, the table.  The backslash-newline of the literal drops the
    indentation, so it is the plain concatenation of the lines. *)
Definition ENCODE : bytes := lit (
  "%2500%2501%2502%2503%2504%2505%2506%2507%2508%2509%250A%250B%250C%250D%250E%250F" ++
  "%2510%2511%2512%2513%2514%2515%2516%2517%2518%2519%251A%251B%251C%251D%251E%251F" ++
  "%2520%2521%2522%2523%2524%2525%2526%2527%2528%2529%252A%252B%252C%252D%252E%252F" ++
  "%2530%2531%2532%2533%2534%2535%2536%2537%2538%2539%253A%253B%253C%253D%253E%253F" ++
  "%2540%2541%2542%2543%2544%2545%2546%2547%2548%2549%254A%254B%254C%254D%254E%254F" ++
  "%2550%2551%2552%2553%2554%2555%2556%2557%2558%2559%255A%255B%255C%255D%255E%255F" ++
  "%2560%2561%2562%2563%2564%2565%2566%2567%2568%2569%256A%256B%256C%256D%256E%256F" ++
  "%2570%2571%2572%2573%2574%2575%2576%2577%2578%2579%257A%257B%257C%257D%257E%257F" ++
  "%2580%2581%2582%2583%2584%2585%2586%2587%2588%2589%258A%258B%258C%258D%258E%258F" ++
  "%2590%2591%2592%2593%2594%2595%2596%2597%2598%2599%259A%259B%259C%259D%259E%259F" ++
  "%25A0%25A1%25A2%25A3%25A4%25A5%25A6%25A7%25A8%25A9%25AA%25AB%25AC%25AD%25AE%25AF" ++
  "%25B0%25B1%25B2%25B3%25B4%25B5%25B6%25B7%25B8%25B9%25BA%25BB%25BC%25BD%25BE%25BF" ++
  "%25C0%25C1%25C2%25C3%25C4%25C5%25C6%25C7%25C8%25C9%25CA%25CB%25CC%25CD%25CE%25CF" ++
  "%25D0%25D1%25D2%25D3%25D4%25D5%25D6%25D7%25D8%25D9%25DA%25DB%25DC%25DD%25DE%25DF" ++
  "%25E0%25E1%25E2%25E3%25E4%25E5%25E6%25E7%25E8%25E9%25EA%25EB%25EC%25ED%25EE%25EF" ++
  "%25F0%25F1%25F2%25F3%25F4%25F5%25F6%25F7%25F8%25F9%25FA%25FB%25FC%25FD%25FE%25FF")%string.

(** [&s[a..b]] panics when the range is out of bounds.
    (percent_encoding.rs:50-51, 106) *)
Definition slice (s : bytes) (a b : nat) : res bytes :=
  if Nat.leb a b && Nat.leb b (length s) then Ok (firstn (b - a) (skipn a s)) else Panic PIndex.

(** [str::from_utf8_unchecked], with the obligation that the bytes are ASCII made explicit.
    (percent_encoding.rs:52,57 assert it in debug builds; line 106 does not.  In the model a
    violation is an error in every build, because it would be undefined behaviour.) *)
Definition from_utf8_unchecked (s : bytes) : res bytes :=
  if forallb is_ascii s then Ok s else Panic PUnchecked.

(** percent_encoding.rs:86-107 [double_encode_byte]. *)
Definition double_encode_byte (b : byte) : res bytes :=
  let i := N.to_nat (bn b) in
  s <- slice ENCODE (i * 5) ((i + 1) * 5) ;;
  from_utf8_unchecked s.

(** Lift a computation that may panic into a [Display] behaviour.
    (percent_encoding.rs:29-68) *)
Definition dlift {A} (x : res A) (f : A -> disp) : disp :=
  match x with Ok a => f a | Panic p => DPanic p end.

(** [.enumerate().skip(1).find(|&(_, &b)| should_percent_encode(b))] (lines 44-48), on the
    bytes after the skipped one; [i] is the index of the head of [l]. *)
Fixpoint find_encode (i : nat) (l : bytes) : res (option (nat * byte)) :=
  match l with
  | [] => Ok None
  | b :: l' =>
      e <- should_percent_encode b ;;
      if e then Ok (Some (i, b)) else find_encode (S i) l'
  end.

(** percent_encoding.rs:34-63, [DoublePercentEncode]'s [Adapter::write_str].  Each iteration
    consumes at least one byte; [fuel] bounds the number of iterations. *)
Fixpoint dpe_write (fuel : nat) (s : bytes) : disp :=
  match s with
  | [] => DRet true                                          (* l.36, l.62 *)
  | b :: rem =>
      match fuel with
      | O => DPanic PFuel
      | S fuel' =>
          dlift (should_percent_encode b) (fun e =>          (* l.37 *)
          if e then
            dlift (double_encode_byte b) (fun t =>           (* l.38-40 *)
            dseq (dstr t) (dpe_write fuel' rem))
          else
            dlift (find_encode 1 rem) (fun found =>          (* l.44-48 *)
            match found with
            | Some (i, b') =>
                dlift (slice s (i + 1) (length s)) (fun rem' =>   (* l.50 *)
                dlift (slice s 0 i) (fun run =>                   (* l.51 *)
                dlift (from_utf8_unchecked run) (fun run =>       (* l.52-53 *)
                dlift (double_encode_byte b') (fun t =>           (* l.54 *)
                dseq (dstr run) (dseq (dstr t) (dpe_write fuel' rem'))))))
            | None =>
                dlift (from_utf8_unchecked s) dstr                (* l.57-58 *)
            end))
      end
  end.

(** percent_encoding.rs:29-68 [Display for DoublePercentEncode<D>]: every [write_str] of the
    inner value goes through the adapter, whose result the inner value sees. *)
Fixpoint DoublePercentEncode (d : disp) : disp :=
  match d with
  | DRet b => DRet b
  | DPanic p => DPanic p
  | DWrite c k => dbind (dpe_write (length c) c) (fun ok => DoublePercentEncode (k ok))
  end.

(** Crate [percent-encoding] 2: [AsciiSet] membership.  [NON_ALPHANUMERIC] holds every ASCII byte
    that is not a letter or digit; [should_percent_encode] of that crate is
    [!byte.is_ascii() || set.contains(byte)].
    (percent_encoding.rs:23) *)
Definition is_alphanumeric (b : byte) : bool :=
  let n := bn b in
  ((N.leb 48 n && N.leb n 57) || (N.leb 65 n && N.leb n 90) || (N.leb 97 n && N.leb n 122))%N.

(** percent_encoding.rs:23-27 [RESERVED], as the membership function of the set. *)
Definition RESERVED (b : byte) : bool :=
  negb (is_alphanumeric b) && negb (beqb b "-") && negb (beqb b ".") && negb (beqb b "_")
  && negb (beqb b "~").

(** The set [RESERVED] of percent_encoding.rs:23-27. *)
Definition lib_should_encode (b : byte) : bool := negb (is_ascii b) || RESERVED b.

(** Crate [percent-encoding] 2: [percent_encode_byte], "%" and two upper-case hex digits.
    (percent_encoding.rs:82-84) *)
Definition hex_upper (n : N) : byte := nth (N.to_nat n) (lit "0123456789ABCDEF") x00.
(** As above (percent_encoding.rs:82-84). *)
Definition percent_encode_byte (b : byte) : bytes :=
  ["%"%byte; hex_upper (bn b / 16); hex_upper (bn b mod 16)].

(** The longest prefix of bytes that need no encoding, and the rest.
    (percent_encoding.rs:82-84) *)
Fixpoint span_plain (l : bytes) : bytes * bytes :=
  match l with
  | [] => ([], [])
  | b :: l' =>
      if lib_should_encode b then ([], l)
      else let '(p, r) := span_plain l' in (b :: p, r)
  end.

(** Crate [percent-encoding] 2: [Iterator for PercentEncode]: an encoded byte, or else the
    longest run of bytes that need no encoding.
    (percent_encoding.rs:82-84) *)
Fixpoint pe_chunks (fuel : nat) (l : bytes) : list bytes :=
  match fuel with
  | O => []
  | S fuel' =>
      match l with
      | [] => []
      | b :: l' =>
          if lib_should_encode b then percent_encode_byte b :: pe_chunks fuel' l'
          else let '(p, r) := span_plain l' in (b :: p) :: pe_chunks fuel' r
      end
  end.

(** percent_encoding.rs:82-84 [percent_encode], as the [Display] of its result
    ([for c in self { f.write_str(c)? }]). *)
Definition percent_encode (input : bytes) : disp := dchunks (pe_chunks (length input) input).

(** percent_encoding.rs:70-80 [Display for PercentEncode<D>]. *)
Fixpoint PercentEncode (d : disp) : disp :=
  match d with
  | DRet b => DRet b
  | DPanic p => DPanic p
  | DWrite c k => dbind (percent_encode c) (fun ok => PercentEncode (k ok))
  end.
