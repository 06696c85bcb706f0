(** UTF-8 as in Go's unicode/utf8, used by the input decoder. Bytes and runes are numbers. *)
From Verif Require Import Base.
From Coq Require Import ZArith NArith String Ascii List Bool.
Import ListNotations.
Open Scope Z_scope.

Definition bytes := list N.

(** An ASCII literal as bytes. *)
Fixpoint asc (s : string) : bytes :=
  match s with EmptyString => [] | String c r => N_of_ascii c :: asc r end.
Definition ESC : N := 27%N.

Definition RuneError : N := 65533%N.

(** The low six bits of a continuation byte. *)
Definition cont (b : N) : N := (b mod 64)%N.
Definition in_range (lo b hi : N) : bool := (lo <=? b)%N && (b <=? hi)%N.

(** unicode/utf8 DecodeRune (Go standard library): the [first] table gives, per first byte, the length of the sequence and the
    range of the second byte. Masks are written as remainders. *)
Definition first_byte (p0 : N) : option (nat * N * N) :=
  if in_range 194 p0 223 then Some (2%nat, 128, 191)%N
  else if (p0 =? 224)%N then Some (3%nat, 160, 191)%N
  else if in_range 225 p0 236 then Some (3%nat, 128, 191)%N
  else if (p0 =? 237)%N then Some (3%nat, 128, 159)%N
  else if in_range 238 p0 239 then Some (3%nat, 128, 191)%N
  else if (p0 =? 240)%N then Some (4%nat, 144, 191)%N
  else if in_range 241 p0 243 then Some (4%nat, 128, 191)%N
  else if (p0 =? 244)%N then Some (4%nat, 128, 143)%N
  else None.
Definition decode_rune (p : bytes) : N * nat :=
  match p with
  | [] => (RuneError, 0%nat)
  | p0 :: q =>
      if (p0 <? 128)%N then (p0, 1%nat) else
      match first_byte p0 with
      | None => (RuneError, 1%nat)
      | Some (sz, lo, hi) =>
          match q with
          | [] => (RuneError, 1%nat)
          | b1 :: q =>
              if (length p <? sz)%nat then (RuneError, 1%nat) else
              if negb (in_range lo b1 hi) then (RuneError, 1%nat) else
              if (sz <=? 2)%nat then ((p0 mod 32) * 64 + cont b1, 2%nat)%N else
              match q with
              | [] => (RuneError, 1%nat)
              | b2 :: q =>
                  if negb (in_range 128 b2 191) then (RuneError, 1%nat) else
                  if (sz <=? 3)%nat then ((p0 mod 16) * 4096 + cont b1 * 64 + cont b2, 3%nat)%N else
                  match q with
                  | [] => (RuneError, 1%nat)
                  | b3 :: _ =>
                      if negb (in_range 128 b3 191) then (RuneError, 1%nat)
                      else ((p0 mod 8) * 262144 + cont b1 * 4096 + cont b2 * 64 + cont b3, 4%nat)%N
                  end
              end
          end
      end
  end.

(** A Unicode scalar value. *)
Definition scalar (r : N) : bool := (r <? 55296)%N || in_range 57344 r 1114111.

(** string(rune): the encoding, that of RuneError for anything that is not a scalar value. *)
Definition encode_rune (r : N) : bytes :=
  let r := if scalar r then r else RuneError in
  if (r <? 128)%N then [r]
  else if (r <? 2048)%N then [192 + r / 64; 128 + r mod 64]%N
  else if (r <? 65536)%N then [224 + r / 4096; 128 + r / 64 mod 64; 128 + r mod 64]%N
  else [240 + r / 262144; 128 + r / 4096 mod 64; 128 + r / 64 mod 64; 128 + r mod 64]%N.
Definition encode (rs : list N) : bytes := flat_map encode_rune rs.
