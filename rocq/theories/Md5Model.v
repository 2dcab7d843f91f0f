(** Md5Model.v - hashlib.md5(name.encode("latin")).digest() as used in pyPDP/utils/utils.py:32-33
    (RFC 1321), on Z. *)
From Coq Require Import ZArith String Ascii List.
Import ListNotations.
Local Open Scope Z_scope.
Local Open Scope list_scope.

(** a 32-bit word, RFC 1321 section 2 (called by hashlib.md5, pyPDP/utils/utils.py:32) *)
Definition w32 (x : Z) : Z := x mod 4294967296.
(** circular shift to the left of a word, RFC 1321 section 2 (called by hashlib.md5, pyPDP/utils/utils.py:32) *)
Definition rotl (x c : Z) : Z := Z.lor (w32 (Z.shiftl x c)) (Z.shiftr x (32 - c)).
(** the table of sines T[1..64], RFC 1321 section 3.4 (called by hashlib.md5, pyPDP/utils/utils.py:32) *)
Definition md5_K : list Z :=
  [3614090360; 3905402710; 606105819; 3250441966; 4118548399; 1200080426; 2821735955; 4249261313;
   1770035416; 2336552879; 4294925233; 2304563134; 1804603682; 4254626195; 2792965006; 1236535329;
   4129170786; 3225465664; 643717713; 3921069994; 3593408605; 38016083; 3634488961; 3889429448;
   568446438; 3275163606; 4107603335; 1163531501; 2850285829; 4243563512; 1735328473; 2368359562;
   4294588738; 2272392833; 1839030562; 4259657740; 2763975236; 1272893353; 4139469664; 3200236656;
   681279174; 3936430074; 3572445317; 76029189; 3654602809; 3873151461; 530742520; 3299628645;
   4096336452; 1126891415; 2878612391; 4237533241; 1700485571; 2399980690; 4293915773; 2240044497;
   1873313359; 4264355552; 2734768916; 1309151649; 4149444226; 3174756917; 718787259; 3951481745].
(** the shift amounts of the four rounds, RFC 1321 section 3.4 (called by hashlib.md5, pyPDP/utils/utils.py:32) *)
Definition md5_shift (i : nat) : Z :=
  nth (Nat.modulo i 4) (nth (Nat.div i 16) [[7; 12; 17; 22]; [5; 9; 14; 20]; [4; 11; 16; 23]; [6; 10; 15; 21]] []) 0.
(** one of the 64 steps on (a, b, c, d): RFC 1321 section 3.4 (called by hashlib.md5, pyPDP/utils/utils.py:32) *)
Definition md5_step (M : list Z) (st : Z * Z * Z * Z) (i : nat) : Z * Z * Z * Z :=
  let '(a, b, c, d) := st in
  let nb := 4294967295 - b in
  let nd := 4294967295 - d in
  let '(f, g) := match Nat.div i 16 with
    | 0%nat => (Z.lor (Z.land b c) (Z.land nb d), i)
    | 1%nat => (Z.lor (Z.land d b) (Z.land nd c), (5 * i + 1)%nat)
    | 2%nat => (Z.lxor b (Z.lxor c d), (3 * i + 5)%nat)
    | _ => (Z.lxor c (Z.lor b nd), (7 * i)%nat)
    end in
  let f' := w32 (f + a + nth i md5_K 0 + nth (Nat.modulo g 16) M 0) in
  (d, w32 (b + rotl f' (md5_shift i)), b, c).
(** one block of sixteen words, RFC 1321 section 3.4 (called by hashlib.md5, pyPDP/utils/utils.py:32) *)
Definition md5_block (st : Z * Z * Z * Z) (M : list Z) : Z * Z * Z * Z :=
  let '(a, b, c, d) := st in
  let '(a', b', c', d') := fold_left (md5_step M) (seq 0 64) st in
  (w32 (a + a'), w32 (b + b'), w32 (c + c'), w32 (d + d')).
(** little-endian bytes of a number, and numbers of bytes:
    RFC 1321 section 2 (called by hashlib.md5, pyPDP/utils/utils.py:32) *)
Fixpoint le_bytes (n : nat) (x : Z) : list Z := match n with O => [] | S k => x mod 256 :: le_bytes k (x / 256) end.
(** a word of its bytes, low-order byte first, RFC 1321 section 2 (called by hashlib.md5, pyPDP/utils/utils.py:32) *)
Fixpoint le_word (l : list Z) : Z := match l with [] => 0 | b :: t => b + 256 * le_word t end.
(** the message in words of four bytes and blocks of sixteen words, RFC 1321 section 3.4 (called by hashlib.md5,
    pyPDP/utils/utils.py:32) *)
Fixpoint chunks {A} (fuel n : nat) (l : list A) : list (list A) :=
  match fuel with O => [] | S k => match l with [] => [] | _ => firstn n l :: chunks k n (skipn n l) end end.
(** name.encode("latin"): pyPDP/utils/utils.py:32 *)
Fixpoint string_bytes (s : string) : list Z := match s with EmptyString => [] | String a t => Z.of_N (N_of_ascii a) :: string_bytes t end.
(** padding and length, RFC 1321 sections 3.1 and 3.2 (called by hashlib.md5, pyPDP/utils/utils.py:32) *)
Definition md5_pad (l : list Z) : list Z :=
  let n := length l in
  l ++ [128] ++ repeat 0 (Nat.modulo (55 + 64 - Nat.modulo n 64) 64) ++ le_bytes 8 (8 * Z.of_nat n).
(** h.digest(): RFC 1321 sections 3.3 to 3.5, pyPDP/utils/utils.py:32-33 *)
Definition md5_digest (l : list Z) : list Z :=
  let p := md5_pad l in
  let words := map le_word (chunks (length p) 4 p) in
  let '(a, b, c, d) := fold_left md5_block (chunks (length words) 16 words) (1732584193, 4023233417, 2562383102, 271733878) in
  le_bytes 4 a ++ le_bytes 4 b ++ le_bytes 4 c ++ le_bytes 4 d.
(** int.from_bytes(digest, "big"): utils.py:33 *)
Definition from_bytes_big (l : list Z) : Z := fold_left (fun acc b => acc * 256 + b) l 0.
(** int.from_bytes(hashlib.md5(name.encode("latin")).digest(), "big"): pyPDP/utils/utils.py:32-33 *)
Definition class_hash (name : string) : Z := from_bytes_big (md5_digest (string_bytes name)).
