(** Model of util::base64_encode / util::base64_decode (src/lib/util.cc:182-295). *)
From Coq Require Import NArith List String.
From Verif Require Import Base.
Import ListNotations.
Local Open Scope N_scope.

(** util.cc:183 *)
Definition enc_map : bytes := s2b "ABCDEFGHIJKLMNOPQRSTUVWXYZabcdefghijklmnopqrstuvwxyz0123456789+/".
(** [base64_map[t]]: reading outside the 64 letters is impossible for the values
    computed below; the NUL default is what the array's terminator would give. *)
Definition enc_char (t : N) : N := nth (N.to_nat t) enc_map 0.

(** util.cc:195-198 and 211-214: the four 6-bit groups of three bytes (uint8_t
    arithmetic, so results are truncated to 8 bits). *)
Definition u8 (n : N) : N := n mod 256.
Definition text0 (a : N) : N := N.shiftr (N.land a 252) 2.
Definition text1 (a b : N) : N := u8 (N.shiftl (N.land a 3) 4 + N.shiftr (N.land b 240) 4).
Definition text2 (b c : N) : N := u8 (N.shiftl (N.land b 15) 2 + N.shiftr (N.land c 192) 6).
Definition text3 (c : N) : N := N.land c 63.

(** util.cc:182-228.  The loop fills a three byte buffer; a rest of one or two
    bytes is padded with NUL, i+1 letters are written and '=' up to four. *)
Fixpoint b64_encode (src : bytes) : bytes :=
  match src with
  | a :: b :: c :: rest =>
      enc_char (text0 a) :: enc_char (text1 a b) :: enc_char (text2 b c) :: enc_char (text3 c) :: b64_encode rest
  | [a; b] => [enc_char (text0 a); enc_char (text1 a b); enc_char (text2 b 0); 61]
  | [a] => [enc_char (text0 a); enc_char (text1 a 0); 61; 61]
  | [] => []
  end.

(** util.cc:231-248, as uint8_t: -2 is 254, -1 is 255. *)
Definition dec_map : list N := [
  254;254;254;254;254;254;254;254;254;255;255;254;254;255;254;254;
  254;254;254;254;254;254;254;254;254;254;254;254;254;254;254;254;
  255;254;254;254;254;254;254;254;254;254;254; 62;254;254;254; 63;
   52; 53; 54; 55; 56; 57; 58; 59; 60; 61;254;254;254;254;254;254;
  254;  0;  1;  2;  3;  4;  5;  6;  7;  8;  9; 10; 11; 12; 13; 14;
   15; 16; 17; 18; 19; 20; 21; 22; 23; 24; 25;254;254;254;254;254;
  254; 26; 27; 28; 29; 30; 31; 32; 33; 34; 35; 36; 37; 38; 39; 40;
   41; 42; 43; 44; 45; 46; 47; 48; 49; 50; 51;254;254;254;254;254].
(** The second half of the table is all -2. *)
Definition dec_val64 (c : N) : N := nth (N.to_nat c) dec_map 254.

(** util.cc:267-269, 287-289 *)
Definition bin0 (t0 t1 : N) : N := u8 (N.shiftl t0 2 + N.shiftr (N.land t1 48) 4).
Definition bin1 (t1 t2 : N) : N := u8 (N.shiftl (N.land t1 15) 4 + N.shiftr (N.land t2 60) 2).
Definition bin2 (t2 t3 : N) : N := u8 (N.shiftl (N.land t2 3) 6 + t3).

(** util.cc:259-293: groups of four letters up to the end or the first '='; a
    rest of i letters gives i-1 bytes, the missing letters being map[0]. *)
Fixpoint dec_groups (src : bytes) : bytes :=
  match src with
  | a :: b :: c :: d :: rest =>
      bin0 (dec_val64 a) (dec_val64 b) :: bin1 (dec_val64 b) (dec_val64 c)
      :: bin2 (dec_val64 c) (dec_val64 d) :: dec_groups rest
  | [a; b; c] => [bin0 (dec_val64 a) (dec_val64 b); bin1 (dec_val64 b) (dec_val64 c)]
  | [a; b] => [bin0 (dec_val64 a) (dec_val64 b)]
  | _ => []
  end.
Fixpoint upto_eq (src : bytes) : bytes :=
  match src with
  | [] => []
  | c :: rest => if c =? 61 then [] else c :: upto_eq rest
  end.
Definition b64_decode (src : bytes) : bytes := dec_groups (upto_eq src).
