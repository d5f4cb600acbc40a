(** * Model of src/md/: md2.rs, md4.rs, md5.rs *)
From Verif Require Import Base.

Section Profile.
Context {P : profile}.

(** ** src/md/md2.rs *)

(** [const S], md2.rs:74-88. *)
Definition MD2_S : list N := [
  41; 46; 67; 201; 162; 216; 124; 1; 61; 54; 84; 161; 236; 240; 6; 19;
  98; 167; 5; 243; 192; 199; 115; 140; 152; 147; 43; 217; 188; 76; 130; 202;
  30; 155; 87; 60; 253; 212; 224; 22; 103; 66; 111; 24; 138; 23; 229; 18;
  190; 78; 196; 214; 218; 158; 222; 73; 160; 251; 245; 142; 187; 47; 238; 122;
  169; 104; 121; 145; 21; 178; 7; 63; 148; 194; 16; 137; 11; 34; 95; 33;
  128; 127; 93; 154; 90; 144; 50; 39; 53; 62; 204; 231; 191; 247; 151; 3;
  255; 25; 48; 179; 72; 165; 181; 209; 215; 94; 146; 42; 172; 86; 170; 198;
  79; 184; 56; 210; 150; 164; 125; 182; 118; 252; 107; 226; 156; 116; 4; 241;
  69; 157; 112; 89; 100; 113; 135; 32; 134; 91; 207; 101; 230; 45; 168; 2;
  27; 96; 37; 173; 174; 176; 185; 246; 28; 70; 97; 105; 52; 64; 126; 15;
  85; 71; 163; 35; 221; 81; 175; 58; 195; 92; 249; 206; 186; 197; 234; 38;
  44; 83; 13; 110; 133; 40; 132; 9; 211; 223; 205; 244; 65; 129; 77; 82;
  106; 220; 55; 200; 108; 193; 171; 250; 36; 225; 123; 8; 12; 189; 177; 74;
  120; 136; 149; 139; 227; 99; 232; 109; 233; 203; 213; 254; 59; 0; 29; 57;
  242; 239; 183; 14; 102; 88; 208; 228; 166; 119; 114; 248; 235; 117; 75; 10;
  49; 68; 80; 180; 143; 237; 31; 26; 219; 153; 141; 51; 159; 17; 131; 20 ].

(** [struct Hasher], md2.rs:9-14. *)
Record md2_hasher := {
  md2_chunk : list N;
  md2_checksum : list N;
  md2_l : N;
  md2_x : list N
}.

(** [Hasher::new], md2.rs:17-24. *)
Definition md2_new : md2_hasher :=
  {| md2_chunk := []; md2_checksum := repeat 0 16; md2_l := 0; md2_x := repeat 0 48 |}.

(** One pass of the loop [for v in &mut self.x], md2.rs:64-67: returns the new
    content of [x] and the new [t]. *)
Fixpoint md2_pass (x : list N) (t : N) : res (list N * N) :=
  match x with
  | [] => Ok ([], t)
  | v :: x' =>
      let* s := idx MD2_S (ix t) in
      let v := N.lxor v s in
      let t := v in
      let* (x', t) := md2_pass x' t in
      Ok (v :: x', t)
  end.

(** [Hasher::process_chunk], md2.rs:46-71. *)
Definition md2_process_chunk (h : md2_hasher) : res md2_hasher :=
  let* c := slice (md2_chunk h) 0 16 in
  let* chunk := to_array 16 c in
  let* (checksum, l) := forM (enumerate chunk) (fun '(j, c) '(checksum, l) =>
      let* s := idx MD2_S (ix (N.lxor c l)) in
      let* cj := idx checksum j in
      let* checksum := upd checksum j (N.lxor cj s) in
      let* l := idx checksum j in
      Ok (checksum, l)) (md2_checksum h, md2_l h) in
  let* x := forM (enumerate chunk) (fun '(j, c) x =>
      let* x := upd x (j + 16) c in
      let* a := idx x (j + 16) in
      let* b := idx x j in
      upd x (j + 32) (N.lxor a b)) (md2_x h) in
  let* (x, _) := forM (range 0 18) (fun j '(x, t) =>
      let* (x, t) := md2_pass x t in
      Ok (x, wadd 8 t (N.of_nat j))) (x, 0) in
  Ok {| md2_chunk := []; md2_checksum := checksum; md2_l := l; md2_x := x |}.

(** [Hasher::consume], md2.rs:26-31. *)
Definition md2_consume (h : md2_hasher) (byte : N) : res md2_hasher :=
  let h := {| md2_chunk := md2_chunk h ++ [byte]; md2_checksum := md2_checksum h;
              md2_l := md2_l h; md2_x := md2_x h |} in
  if (length (md2_chunk h) =? 16)%nat then md2_process_chunk h else Ok h.

(** [Hasher::finish], md2.rs:33-44. *)
Definition md2_finish (h : md2_hasher) : res (list N) :=
  let* pad := csub 8 16 (N.of_nat (length (md2_chunk h)) mod 256) in
  let* chunk := forM (range 0 (ix pad)) (fun _ chunk => Ok (chunk ++ [pad]))
                     (md2_chunk h) in
  let* h := md2_process_chunk
      {| md2_chunk := chunk; md2_checksum := md2_checksum h;
         md2_l := md2_l h; md2_x := md2_x h |} in
  let* h := md2_process_chunk
      {| md2_chunk := md2_chunk h ++ md2_checksum h; md2_checksum := md2_checksum h;
         md2_l := md2_l h; md2_x := md2_x h |} in
  let* r := slice (md2_x h) 0 16 in
  to_array 16 r.

(** [md2::hash], md2.rs:1-7. *)
Definition md2_hash (data : list N) : res (list N) :=
  let* h := forM data (fun b h => md2_consume h b) md2_new in
  md2_finish h.

(** ** The parts with identical text in src/md/md4.rs and src/md/md5.rs *)

(** [u32::swap_bytes]. *)
Definition swap_bytes (x : N) : N := from_le (to_be 4 x).

(** [struct Hasher], md4.rs:11-19, md5.rs:11-19. *)
Record md_hasher := {
  md_unprocessed_bytes : list N;
  md_bytes_consumed : N;
  md_a : N; md_b : N; md_c : N; md_d : N
}.

(** [Hasher::new], md4.rs:22-32, md5.rs:22-32. *)
Definition md_new : md_hasher := {|
  md_unprocessed_bytes := [];
  md_bytes_consumed := 0;
  md_a := swap_bytes 0x01234567;
  md_b := swap_bytes 0x89abcdef;
  md_c := swap_bytes 0xfedcba98;
  md_d := swap_bytes 0x76543210
|}.

(** [Block::from_slice], md4.rs:83-90, md5.rs:83-90. *)
Definition md_from_slice (chunk : list N) : res (list N) :=
  mapM (fun j =>
      let i := (j * 4)%nat in
      let* s := slice chunk i (i + 4) in
      let* s := to_array 4 s in
      Ok (from_le s)) (range 0 16).

(** The type of [Block::process]. *)
Definition md_process : Type := list N -> N -> N -> N -> N -> res (N * N * N * N).

(** [Hasher::process_block], md4.rs:42-52, md5.rs:42-52. *)
Definition md_process_block (process : md_process) (h : md_hasher) : res md_hasher :=
  let* block := md_from_slice (md_unprocessed_bytes h) in
  let* (a, b, c, d) := process block (md_a h) (md_b h) (md_c h) (md_d h) in
  Ok {| md_unprocessed_bytes := [];
        md_bytes_consumed := md_bytes_consumed h;
        md_a := wadd 32 (md_a h) a;
        md_b := wadd 32 (md_b h) b;
        md_c := wadd 32 (md_c h) c;
        md_d := wadd 32 (md_d h) d |}.

(** [Hasher::consume], md4.rs:34-40, md5.rs:34-40. *)
Definition md_consume (process : md_process) (h : md_hasher) (byte : N) : res md_hasher :=
  let* n := cadd 64 (md_bytes_consumed h) 1 in
  let h := {| md_unprocessed_bytes := md_unprocessed_bytes h ++ [byte];
              md_bytes_consumed := n;
              md_a := md_a h; md_b := md_b h; md_c := md_c h; md_d := md_d h |} in
  if (length (md_unprocessed_bytes h) =? 64)%nat
  then md_process_block process h else Ok h.

(** [Hasher::finish], md4.rs:54-75, md5.rs:54-75. *)
Definition md_finish (process : md_process) (h : md_hasher) : res (list N) :=
  let* bits_consumed := cmul 64 (md_bytes_consumed h) 8 in
  let* num_pad_bytes :=
    if (length (md_unprocessed_bytes h) =? 56)%nat then Ok 64%nat
    else let* k := nsub (64 + 56) (length (md_unprocessed_bytes h)) in
         Ok (k mod 64)%nat in
  let* h := md_consume process h 0x80 in
  let* k := nsub num_pad_bytes 1 in
  let* h := forM (range 0 k) (fun _ h => md_consume process h 0) h in
  let* h := forM (to_le 8 bits_consumed) (fun b h => md_consume process h b) h in
  let out := repeat 0 16 in
  let* out := copy_range out 0 4 (to_le 4 (md_a h)) in
  let* out := copy_range out 4 8 (to_le 4 (md_b h)) in
  let* out := copy_range out 8 12 (to_le 4 (md_c h)) in
  copy_range out 12 16 (to_le 4 (md_d h)).

(** [hash], md4.rs:1-9, md5.rs:1-9. *)
Definition md_hash (process : md_process) (data : list N) : res (list N) :=
  let* h := forM data (fun b h => md_consume process h b) md_new in
  md_finish process h.

(** ** src/md/md4.rs *)

(** [f], [g], [h], md4.rs:166-174. *)
Definition md4_f (x y z : N) : N := N.lxor (N.land x y) (N.land (wnot 32 x) z).
Definition md4_g (x y z : N) : N :=
  N.lor (N.lor (N.land x y) (N.land x z)) (N.land y z).
Definition md4_h (x y z : N) : N := N.lxor (N.lxor x y) z.

(** [Block::ff], md4.rs:92-94. *)
Definition md4_ff (x : list N) (a b c d : N) (i : nat) (s : N) : res N :=
  let* xi := idx x i in
  Ok (rotl 32 (wadd 32 (wadd 32 a (md4_f b c d)) xi) s).
(** [Block::gg], md4.rs:96-101. *)
Definition md4_gg (x : list N) (a b c d : N) (i : nat) (s : N) : res N :=
  let* xi := idx x i in
  Ok (rotl 32 (wadd 32 (wadd 32 (wadd 32 a (md4_g b c d)) xi) 0x5A827999) s).
(** [Block::hh], md4.rs:103-108. *)
Definition md4_hh (x : list N) (a b c d : N) (i : nat) (s : N) : res N :=
  let* xi := idx x i in
  Ok (rotl 32 (wadd 32 (wadd 32 (wadd 32 a (md4_h b c d)) xi) 0x6ED9EBA1) s).

(** [Block::process], md4.rs:110-163. *)
Definition md4_process : md_process := fun x a b c d =>
  let* a := md4_ff x a b c d 0 3 in
  let* d := md4_ff x d a b c 1 7 in
  let* c := md4_ff x c d a b 2 11 in
  let* b := md4_ff x b c d a 3 19 in
  let* a := md4_ff x a b c d 4 3 in
  let* d := md4_ff x d a b c 5 7 in
  let* c := md4_ff x c d a b 6 11 in
  let* b := md4_ff x b c d a 7 19 in
  let* a := md4_ff x a b c d 8 3 in
  let* d := md4_ff x d a b c 9 7 in
  let* c := md4_ff x c d a b 10 11 in
  let* b := md4_ff x b c d a 11 19 in
  let* a := md4_ff x a b c d 12 3 in
  let* d := md4_ff x d a b c 13 7 in
  let* c := md4_ff x c d a b 14 11 in
  let* b := md4_ff x b c d a 15 19 in
  let* a := md4_gg x a b c d 0 3 in
  let* d := md4_gg x d a b c 4 5 in
  let* c := md4_gg x c d a b 8 9 in
  let* b := md4_gg x b c d a 12 13 in
  let* a := md4_gg x a b c d 1 3 in
  let* d := md4_gg x d a b c 5 5 in
  let* c := md4_gg x c d a b 9 9 in
  let* b := md4_gg x b c d a 13 13 in
  let* a := md4_gg x a b c d 2 3 in
  let* d := md4_gg x d a b c 6 5 in
  let* c := md4_gg x c d a b 10 9 in
  let* b := md4_gg x b c d a 14 13 in
  let* a := md4_gg x a b c d 3 3 in
  let* d := md4_gg x d a b c 7 5 in
  let* c := md4_gg x c d a b 11 9 in
  let* b := md4_gg x b c d a 15 13 in
  let* a := md4_hh x a b c d 0 3 in
  let* d := md4_hh x d a b c 8 9 in
  let* c := md4_hh x c d a b 4 11 in
  let* b := md4_hh x b c d a 12 15 in
  let* a := md4_hh x a b c d 2 3 in
  let* d := md4_hh x d a b c 10 9 in
  let* c := md4_hh x c d a b 6 11 in
  let* b := md4_hh x b c d a 14 15 in
  let* a := md4_hh x a b c d 1 3 in
  let* d := md4_hh x d a b c 9 9 in
  let* c := md4_hh x c d a b 5 11 in
  let* b := md4_hh x b c d a 13 15 in
  let* a := md4_hh x a b c d 3 3 in
  let* d := md4_hh x d a b c 11 9 in
  let* c := md4_hh x c d a b 7 11 in
  let* b := md4_hh x b c d a 15 15 in
  Ok (a, b, c, d).

(** [md4::hash], md4.rs:1-9. *)
Definition md4_hash : list N -> res (list N) := md_hash md4_process.

(** ** src/md/md5.rs *)

(** [const T], md5.rs:190-201. *)
Definition MD5_T : list N := [
  0xd76aa478; 0xe8c7b756; 0x242070db; 0xc1bdceee; 0xf57c0faf; 0x4787c62a; 0xa8304613; 0xfd469501;
  0x698098d8; 0x8b44f7af; 0xffff5bb1; 0x895cd7be; 0x6b901122; 0xfd987193; 0xa679438e; 0x49b40821;
  0xf61e2562; 0xc040b340; 0x265e5a51; 0xe9b6c7aa; 0xd62f105d; 0x2441453; 0xd8a1e681; 0xe7d3fbc8;
  0x21e1cde6; 0xc33707d6; 0xf4d50d87; 0x455a14ed; 0xa9e3e905; 0xfcefa3f8; 0x676f02d9; 0x8d2a4c8a;
  0xfffa3942; 0x8771f681; 0x6d9d6122; 0xfde5380c; 0xa4beea44; 0x4bdecfa9; 0xf6bb4b60; 0xbebfbc70;
  0x289b7ec6; 0xeaa127fa; 0xd4ef3085; 0x4881d05; 0xd9d4d039; 0xe6db99e5; 0x1fa27cf8; 0xc4ac5665;
  0xf4292244; 0x432aff97; 0xab9423a7; 0xfc93a039; 0x655b59c3; 0x8f0ccc92; 0xffeff47d; 0x85845dd1;
  0x6fa87e4f; 0xfe2ce6e0; 0xa3014314; 0x4e0811a1; 0xf7537e82; 0xbd3af235; 0x2ad7d2bb; 0xeb86d391 ].

(** [f], [g], [h], [_i], md5.rs:177-188. *)
Definition md5_f (x y z : N) : N := N.lor (N.land x y) (N.land (wnot 32 x) z).
Definition md5_g (x y z : N) : N := N.lor (N.land x z) (N.land y (wnot 32 z)).
Definition md5_h (x y z : N) : N := N.lxor (N.lxor x y) z.
Definition md5_i (x y z : N) : N := N.lxor y (N.lor x (wnot 32 z)).

(** [Block::ff], md5.rs:92-98. *)
Definition md5_ff (x : list N) (a b c d : N) (ksi : nat * N * nat) : res N :=
  let '(k, s, i) := ksi in
  let* xk := idx x k in
  let* i1 := nsub i 1 in
  let* t := idx MD5_T i1 in
  Ok (wadd 32 (rotl 32 (wadd 32 (wadd 32 (wadd 32 a (md5_f b c d)) xk) t) s) b).
(** [Block::gg], md5.rs:100-106. *)
Definition md5_gg (x : list N) (a b c d : N) (ksi : nat * N * nat) : res N :=
  let '(k, s, i) := ksi in
  let* xk := idx x k in
  let* i1 := nsub i 1 in
  let* t := idx MD5_T i1 in
  Ok (wadd 32 (rotl 32 (wadd 32 (wadd 32 (wadd 32 a (md5_g b c d)) xk) t) s) b).
(** [Block::hh], md5.rs:108-114. *)
Definition md5_hh (x : list N) (a b c d : N) (ksi : nat * N * nat) : res N :=
  let '(k, s, i) := ksi in
  let* xk := idx x k in
  let* i1 := nsub i 1 in
  let* t := idx MD5_T i1 in
  Ok (wadd 32 (rotl 32 (wadd 32 (wadd 32 (wadd 32 a (md5_h b c d)) xk) t) s) b).
(** [Block::ii], md5.rs:116-122. *)
Definition md5_ii (x : list N) (a b c d : N) (ksi : nat * N * nat) : res N :=
  let '(k, s, i) := ksi in
  let* xk := idx x k in
  let* i1 := nsub i 1 in
  let* t := idx MD5_T i1 in
  Ok (wadd 32 (rotl 32 (wadd 32 (wadd 32 (wadd 32 a (md5_i b c d)) xk) t) s) b).

(** [Block::process], md5.rs:124-174. *)
Definition md5_process : md_process := fun x a b c d =>
  let* (a, b, c, d) := forM [
    [(0%nat, 7, 1%nat); (1%nat, 12, 2%nat); (2%nat, 17, 3%nat); (3%nat, 22, 4%nat)];
    [(4%nat, 7, 5%nat); (5%nat, 12, 6%nat); (6%nat, 17, 7%nat); (7%nat, 22, 8%nat)];
    [(8%nat, 7, 9%nat); (9%nat, 12, 10%nat); (10%nat, 17, 11%nat); (11%nat, 22, 12%nat)];
    [(12%nat, 7, 13%nat); (13%nat, 12, 14%nat); (14%nat, 17, 15%nat); (15%nat, 22, 16%nat)] ] (fun rows '(a, b, c, d) =>
    let* r := idx rows 0 in
    let* a := md5_ff x a b c d r in
    let* r := idx rows 1 in
    let* d := md5_ff x d a b c r in
    let* r := idx rows 2 in
    let* c := md5_ff x c d a b r in
    let* r := idx rows 3 in
    let* b := md5_ff x b c d a r in
    Ok (a, b, c, d)) (a, b, c, d) in
  let* (a, b, c, d) := forM [
    [(1%nat, 5, 17%nat); (6%nat, 9, 18%nat); (11%nat, 14, 19%nat); (0%nat, 20, 20%nat)];
    [(5%nat, 5, 21%nat); (10%nat, 9, 22%nat); (15%nat, 14, 23%nat); (4%nat, 20, 24%nat)];
    [(9%nat, 5, 25%nat); (14%nat, 9, 26%nat); (3%nat, 14, 27%nat); (8%nat, 20, 28%nat)];
    [(13%nat, 5, 29%nat); (2%nat, 9, 30%nat); (7%nat, 14, 31%nat); (12%nat, 20, 32%nat)] ] (fun rows '(a, b, c, d) =>
    let* r := idx rows 0 in
    let* a := md5_gg x a b c d r in
    let* r := idx rows 1 in
    let* d := md5_gg x d a b c r in
    let* r := idx rows 2 in
    let* c := md5_gg x c d a b r in
    let* r := idx rows 3 in
    let* b := md5_gg x b c d a r in
    Ok (a, b, c, d)) (a, b, c, d) in
  let* (a, b, c, d) := forM [
    [(5%nat, 4, 33%nat); (8%nat, 11, 34%nat); (11%nat, 16, 35%nat); (14%nat, 23, 36%nat)];
    [(1%nat, 4, 37%nat); (4%nat, 11, 38%nat); (7%nat, 16, 39%nat); (10%nat, 23, 40%nat)];
    [(13%nat, 4, 41%nat); (0%nat, 11, 42%nat); (3%nat, 16, 43%nat); (6%nat, 23, 44%nat)];
    [(9%nat, 4, 45%nat); (12%nat, 11, 46%nat); (15%nat, 16, 47%nat); (2%nat, 23, 48%nat)] ] (fun rows '(a, b, c, d) =>
    let* r := idx rows 0 in
    let* a := md5_hh x a b c d r in
    let* r := idx rows 1 in
    let* d := md5_hh x d a b c r in
    let* r := idx rows 2 in
    let* c := md5_hh x c d a b r in
    let* r := idx rows 3 in
    let* b := md5_hh x b c d a r in
    Ok (a, b, c, d)) (a, b, c, d) in
  let* (a, b, c, d) := forM [
    [(0%nat, 6, 49%nat); (7%nat, 10, 50%nat); (14%nat, 15, 51%nat); (5%nat, 21, 52%nat)];
    [(12%nat, 6, 53%nat); (3%nat, 10, 54%nat); (10%nat, 15, 55%nat); (1%nat, 21, 56%nat)];
    [(8%nat, 6, 57%nat); (15%nat, 10, 58%nat); (6%nat, 15, 59%nat); (13%nat, 21, 60%nat)];
    [(4%nat, 6, 61%nat); (11%nat, 10, 62%nat); (2%nat, 15, 63%nat); (9%nat, 21, 64%nat)] ] (fun rows '(a, b, c, d) =>
    let* r := idx rows 0 in
    let* a := md5_ii x a b c d r in
    let* r := idx rows 1 in
    let* d := md5_ii x d a b c r in
    let* r := idx rows 2 in
    let* c := md5_ii x c d a b r in
    let* r := idx rows 3 in
    let* b := md5_ii x b c d a r in
    Ok (a, b, c, d)) (a, b, c, d) in
  Ok (a, b, c, d).

(** [md5::hash], md5.rs:1-9. *)
Definition md5_hash : list N -> res (list N) := md_hash md5_process.

End Profile.
