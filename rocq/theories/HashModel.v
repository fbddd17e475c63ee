(** Model of MurmurHash2 and MetaClient::partId.
    /repo/src/common/base/MurmurHash2.h:43-86, /repo/src/common/clients/meta/MetaClient.cpp:1033-1046
    Memory is a list of bytes (0..255); reading outside it is undefined. The machine is little endian.
    Unaligned 64-bit loads are taken to be allowed (x86-64). *)
From Verif Require Import Prelude.

Definition mul64 (a b : Z) : Z := (a * b) mod two64.
Definition shl64 (a n : Z) : Z := Z.shiftl a n mod two64.
Definition shr64 (a n : Z) : Z := Z.shiftr a n.

Definition rd8 (mem : list Z) (off : nat) : outcome Z :=
  match nth_error mem off with Some b => Ret b | None => UB end.
(** A 64-bit load is eight byte loads. *)
Definition rd64 (mem : list Z) (off : nat) : outcome Z :=
  let* b0 := rd8 mem off in
  let* b1 := rd8 mem (off + 1) in
  let* b2 := rd8 mem (off + 2) in
  let* b3 := rd8 mem (off + 3) in
  let* b4 := rd8 mem (off + 4) in
  let* b5 := rd8 mem (off + 5) in
  let* b6 := rd8 mem (off + 6) in
  let* b7 := rd8 mem (off + 7) in
  Ret (Z.lor b0 (Z.lor (Z.shiftl b1 8) (Z.lor (Z.shiftl b2 16) (Z.lor (Z.shiftl b3 24)
      (Z.lor (Z.shiftl b4 32) (Z.lor (Z.shiftl b5 40) (Z.lor (Z.shiftl b6 48) (Z.shiftl b7 56)))))))).

Definition mm : Z := 0xc6a4a7935bd1e995.
Definition mseed : Z := 0xc70f6907.
Definition mr : Z := 47.

(** The word loop, MurmurHash2.h:53-62; [words] is end - data. *)
Fixpoint murmurLoop (words : nat) (mem : list Z) (off : nat) (h : Z) : outcome (Z * nat) :=
  match words with
  | O => Ret (h, off)
  | S w =>
      let* k := rd64 mem off in
      let k := mul64 k mm in
      let k := Z.lxor k (shr64 k mr) in
      let k := mul64 k mm in
      let h := Z.lxor h k in
      let h := mul64 h mm in
      murmurLoop w mem (off + 8) h
  end.

(** The fall-through switch, MurmurHash2.h:64-81. *)
Definition murmurTail (n : nat) (mem : list Z) (off : nat) (h : Z) : outcome Z :=
  let case (k : nat) (sh : Z) (h : Z) : outcome Z :=
    if (k <=? n)%nat then let* b := rd8 mem (off + (k - 1)) in Ret (Z.lxor h (shl64 b sh)) else Ret h in
  let* h := case 7%nat 48 h in
  let* h := case 6%nat 40 h in
  let* h := case 5%nat 32 h in
  let* h := case 4%nat 24 h in
  let* h := case 3%nat 16 h in
  let* h := case 2%nat 8 h in
  if (1 <=? n)%nat then let* b := rd8 mem off in Ret (mul64 (Z.lxor h b) mm) else Ret h.

(** operator()(const T*, size_t), MurmurHash2.h:45-86 *)
Definition murmur (mem : list Z) (size : nat) : outcome Z :=
  let h := Z.lxor mseed (mul64 (Z.of_nat size) mm) in
  let* r := murmurLoop (size / 8) mem 0 h in
  let '(h, off) := r in
  let* h := murmurTail (Nat.land size 7) mem off h in
  let h := Z.lxor h (shr64 h mr) in
  let h := mul64 h mm in
  let h := Z.lxor h (shr64 h mr) in
  Ret h.

(** strlen on memory that must contain a terminator *)
Fixpoint strlen (mem : list Z) : outcome nat :=
  match mem with
  | [] => UB
  | b :: mem' => if Z.eqb b 0 then Ret O else let* n := strlen mem' in Ret (S n)
  end.

(** partId. [id] is the string; its storage id.data() is followed by a NUL. `hash(id.data())` selects
    operator()(const std::string&) through the conversion from a C string (a const char* rvalue
    binds to no other overload), so the hash covers the bytes before the first NUL. The result of % is a
    uint64 (numParts converts to uint64) narrowed to int32. *)
Definition partId (numParts : Z) (id : list Z) : outcome Z :=
  let* vid := (if Nat.eqb (length id) 8 then rd64 id 0
               else let mem := id ++ [0] in
                    let* n := strlen mem in murmur (firstn n mem) n) in
  if Z.eqb numParts 0 then UB
  else
    let pid := wrap32 (vid mod u64 numParts + 1) in
    if 0 <? pid then Ret pid else Fatal.
