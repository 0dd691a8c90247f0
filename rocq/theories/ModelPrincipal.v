(** Textual form of a principal, as printed by [Principal]'s [Display] (external crate [candid]/[ic_principal]):
    base32 (RFC 4648, lower case, no padding) of the CRC-32 of the bytes followed by the bytes, in groups of five
    characters separated by dashes.  Used in src/core_nft/src/updates/management.rs:523,544-548 and
    src/index_icrc7/src/wrapped_values.rs:75-90. *)
From Verif Require Import Base.

(** One bit step of CRC-32 (polynomial 0xEDB88320, reflected); external crate. *)
Fixpoint crc_bits (n : nat) (c : N) : N :=
  match n with
  | O => c
  | S k => crc_bits k (if N.testbit c 0 then N.lxor (N.shiftr c 1) 3988292384 else N.shiftr c 1)
  end.

(** CRC-32 of a byte string; external crate. *)
Definition crc32 (b : bytes) : N :=
  N.lxor (fold_left (fun c x => crc_bits 8 (N.lxor c x)) b 4294967295) 4294967295.

(** Big-endian bytes of a 32-bit number; external crate. *)
Definition be32 (n : N) : bytes :=
  [N.shiftr n 24 mod 256; N.shiftr n 16 mod 256; N.shiftr n 8 mod 256; n mod 256].

(** Bits of a byte, most significant first; external crate. *)
Definition byte_bits (b : N) : list bool := map (fun i => N.testbit b i) [7; 6; 5; 4; 3; 2; 1; 0].

(** Base32 digit; external crate. *)
Definition b32_digit (n : N) : Ascii.ascii :=
  if n <? 26 then Ascii.ascii_of_N (97 + n) else Ascii.ascii_of_N (50 + (n - 26)).

(** Base32 of a bit string, five bits per character, zero-filled at the end; external crate. *)
Fixpoint b32_bits (l : list bool) : list Ascii.ascii :=
  match l with
  | a :: b :: c :: d :: e :: r =>
      b32_digit (16 * N.b2n a + 8 * N.b2n b + 4 * N.b2n c + 2 * N.b2n d + N.b2n e) :: b32_bits r
  | [] => []
  | [a] => [b32_digit (16 * N.b2n a)]
  | [a; b] => [b32_digit (16 * N.b2n a + 8 * N.b2n b)]
  | [a; b; c] => [b32_digit (16 * N.b2n a + 8 * N.b2n b + 4 * N.b2n c)]
  | [a; b; c; d] => [b32_digit (16 * N.b2n a + 8 * N.b2n b + 4 * N.b2n c + 2 * N.b2n d)]
  end.

(** Dashes after every fifth character; external crate. *)
Fixpoint dashed (n : nat) (l : list Ascii.ascii) : string :=
  match l with
  | [] => ""
  | c :: r =>
      match n with
      | O => String (Ascii.ascii_of_N 45) (String c (dashed 4 r))
      | S k => String c (dashed k r)
      end
  end.

(** [Principal::to_text]; external crate. *)
Definition principal_text (p : principal) : string :=
  dashed 5 (b32_bits (concat (map byte_bits (be32 (crc32 p) ++ p)))).

(** ** Parsing, [Principal::from_text]; external crate.  Used by [WrappedAccount::from_str],
    src/index_icrc7/src/wrapped_values.rs:75-90. *)

(** Removal of the dashes; external crate. *)
Fixpoint undash (s : string) : list Ascii.ascii :=
  match s with
  | EmptyString => []
  | String c r => if Ascii.eqb c (Ascii.ascii_of_N 45) then undash r else c :: undash r
  end.

(** The five bits of a base32 digit (lower case; other characters are caught by the final comparison); external crate. *)
Definition b32_undigit (c : Ascii.ascii) : list bool :=
  let n := Ascii.N_of_ascii c in
  let v := if 97 <=? n then n - 97 else n - 50 + 26 in
  map (fun i => N.testbit v i) [4; 3; 2; 1; 0].

(** The byte with the given bits, most significant first; external crate. *)
Definition bits_byte (l : list bool) : N := fold_left (fun n b => 2 * n + N.b2n b) l 0.

(** Groups of eight bits, a shorter rest is dropped; external crate. *)
Fixpoint bits_bytes (l : list bool) : bytes :=
  match l with
  | a :: b :: c :: d :: e :: f :: g :: h :: r => bits_byte [a; b; c; d; e; f; g; h] :: bits_bytes r
  | _ => []
  end.

(** [Principal::from_text]: decode, drop the checksum, refuse more than 29 bytes, and refuse any text other than the
    canonical one of the result (which includes the check of the checksum, the case and the grouping); external crate. *)
Definition principal_parse (s : string) : option principal :=
  let p := drop 4 (bits_bytes (concat (map b32_undigit (undash s)))) in
  if (length p <=? 29)%nat && bool_decide (principal_text p = s) then Some p else None.
