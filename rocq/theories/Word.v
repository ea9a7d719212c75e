(** 64-bit words and include/popcount.h, include/config.hpp constants. *)
From Coq Require Import List NArith ZArith Bool.
From Verif Require Import Res.
Import ListNotations.

(** config.hpp:14,17,24 *)
Definition kFanout : nat := 256.
Definition kWordSize : nat := 64.
Definition kTerminator : nat := 255.

(** config.hpp:26,28 *)
Definition kHashShift : nat := 7.
Definition kCouldBePositive : Z := 2018.

(** config.hpp:18 *)
Definition kMsbMask : N := 0x8000000000000000%N.

Definition two32 : N := 4294967296%N.
Definition two64 : N := 18446744073709551616%N.
Definition wrap32 (n : N) : N := (n mod two32)%N.
Definition wrap64 (n : N) : N := (n mod two64)%N.
Definition fits32 (n : N) : bool := (n <? two32)%N.

(** a - b in uint32_t arithmetic *)
Definition sub32 (a b : N) : N := wrap32 (a + two32 - b)%N.

(** w << k and w >> k on uint64_t *)
Definition shl64 (e : env) (w k : N) : res N :=
  if (k <? 64)%N then Ok (wrap64 (N.shiftl w k))
  else if strict_shift e then Fail WideShift
  else Ok (wrap64 (N.shiftl w (k mod 64)%N)).

Definition shr64 (e : env) (w k : N) : res N :=
  if (k <? 64)%N then Ok (N.shiftr w k)
  else if strict_shift e then Fail WideShift
  else Ok (N.shiftr w (k mod 64)%N).

(** __builtin_popcountll, __builtin_clzll, __builtin_ctzll by their
    definition (compiler builtins). *)
Fixpoint popcnt_pos (p : positive) : nat :=
  match p with
  | xH => 1
  | xO q => popcnt_pos q
  | xI q => S (popcnt_pos q)
  end.
Definition popcnt (w : N) : nat :=
  match w with N0 => 0 | Npos p => popcnt_pos p end.

Definition clz64 (w : N) : nat := 63 - N.to_nat (N.log2 w).

Fixpoint ctz_pos (p : positive) : nat :=
  match p with xO q => S (ctz_pos q) | _ => 0 end.
Definition ctz (w : N) : nat :=
  match w with N0 => 64 | Npos p => ctz_pos p end.

(** Read of bits[i] for a word array allocated with exactly [length ws] words. *)
Definition wread (e : env) (ws : list N) (i : nat) : res N :=
  match nth_error ws i with
  | Some w => Ok w
  | None =>
      if strict_mem e then Fail OutOfBounds
      else if i =? length ws then Ok (wrap64 (junk e ws))
      else Fail OutOfBounds
  end.

(** popcount.h:48-58 suxpopcount *)
Definition G2 : N := 0xAAAAAAAAAAAAAAAA%N.
Definition G4 : N := 0x3333333333333333%N.
Definition G8 : N := 0x0F0F0F0F0F0F0F0F%N.
Definition L8 : N := 0x0101010101010101%N.
Definition suxpopcount (x0 : N) : N :=
  let x1 := wrap64 (x0 + two64 - N.shiftr (N.land x0 G2) 1)%N in
  let x2 := wrap64 (N.land x1 G4 + N.land (N.shiftr x1 2) G4)%N in
  let x3 := N.land (wrap64 (x2 + N.shiftr x2 4)%N) G8 in
  N.shiftr (wrap64 (x3 * L8)%N) 56.

(** popcount.h:70-87 popcountLinear(bits, x, nbits); the prefetch is dropped. *)
Definition popcountLinear (e : env) (bits : list N) (x nbits : nat) : res nat :=
  match nbits with
  | O => Ok 0
  | S m =>
      let lastword := m / 64 in
      p <- foldM (fun acc i => w <- wread e bits (x + i) ;; Ok (acc + popcnt w))
             (seq 0 lastword) 0 ;;
      w <- wread e bits (x + lastword) ;;
      lastshifted <- shr64 e w (63 - N.of_nat (m mod 64)) ;;
      Ok (p + popcnt lastshifted)
  end.

(** popcount.h:90-102 select64_naive: [i] runs from 63 down to 0. *)
Fixpoint select64_naive_loop (fuel : nat) (x : N) (k : Z) (i : nat) (count : Z) : Z :=
  match fuel with
  | O => (-1)%Z
  | S f =>
      let count' := (count + 1)%Z in
      if negb (N.land x (N.shiftl 1 (N.of_nat i)) =? 0)%N then
        let k' := (k - 1)%Z in
        if (k' =? 0)%Z then count'
        else select64_naive_loop f x k' (i - 1) count'
      else select64_naive_loop f x k (i - 1) count'
  end.
Definition select64_naive (x : N) (k : Z) : Z := select64_naive_loop 64 x k 63 (-1).

(** popcount.h:104-119 select64_popcount_search: testbits = 32,16,...,1 *)
Definition select64_step (st : N * Z * Z) (testbits : N) : N * Z * Z :=
  let '(x, loc, k) := st in
  let lcount := Z.of_nat (popcnt (N.shiftr x testbits)) in
  if (k >? lcount)%Z then
    (N.land x (N.shiftl 1 testbits - 1), (loc + Z.of_N testbits)%Z, (k - lcount)%Z)
  else (N.shiftr x testbits, loc, k).
Definition select64_popcount_search (x : N) (k : Z) : Z :=
  let '(_, loc, k') := fold_left select64_step [32; 16; 8; 4; 2; 1]%N (x, (-1)%Z, k) in
  (loc + k')%Z.

(** popcount.h:147-149 select64 *)
Definition select64 (x : N) (k : Z) : Z := select64_popcount_search x k.

(** popcount.h:153-169 select512 *)
Fixpoint select512_loop (e : env) (fuel : nat) (bits : list N) (x i : nat) (k pop : Z)
  : res (nat * Z * Z) :=
  if (k >? pop)%Z && (i <? 7) then
    match fuel with
    | O => Fail NoFuel
    | S f =>
        w <- wread e bits (x + S i) ;;
        select512_loop e f bits x (S i) (k - pop)%Z (Z.of_nat (popcnt w))
    end
  else Ok (i, k, pop).
Definition select512 (e : env) (bits : list N) (x : nat) (k : Z) : res Z :=
  w <- wread e bits x ;;
  '(i, k', pop) <- select512_loop e 7 bits x 0 k (Z.of_nat (popcnt w)) ;;
  wi <- wread e bits (x + i) ;;
  if (i =? 7) && (Z.of_nat (popcnt wi) <? k')%Z then Ok (-1)%Z
  else Ok (Z.of_nat i * 64 + select64 wi k')%Z.

(** popcount.h:175-190 selectLinear; the uint64_t result -1 is [None]. *)
Fixpoint selectLinear_loop (e : env) (fuel : nat) (bits : list N) (len x i : nat) (k pop : Z)
  : res (nat * Z * Z) :=
  if (k >? pop)%Z && (i <? len - 1) then
    match fuel with
    | O => Fail NoFuel
    | S f =>
        w <- wread e bits (x + S i) ;;
        selectLinear_loop e f bits len x (S i) (k - pop)%Z (Z.of_nat (popcnt w))
    end
  else Ok (i, k, pop).
Definition selectLinear (e : env) (bits : list N) (len x : nat) (k : Z) : res (option Z) :=
  if (k >? Z.of_nat ((len - x) * 64))%Z then Ok None
  else
    w <- wread e bits x ;;
    '(i, k', pop) <- selectLinear_loop e len bits len x 0 k (Z.of_nat (popcnt w)) ;;
    if (i =? len - 1) && (pop <? k')%Z then Ok None
    else
      wi <- wread e bits (x + i) ;;
      Ok (Some (Z.of_nat i * 64 + select64 wi k')%Z).
