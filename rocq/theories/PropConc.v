(* PropConc.v -- properties C21-C25: parallel loops, bit reversal, the point FFT. *)
From Coq Require Import Relations.
From Verif Require Import Base Fld Conc Parallel BitRev FFT Poly ConcLemmas.

(* C21: the ranges handed to the workers are non-empty and, laid end to end, are exactly
   0, 1, ..., n-1; there are at most [tasks] of them. *)
Theorem C21_parallelize_partition : forall n tasks, 1 <= tasks ->
  exists l, chunks n tasks = Some l /\
    flat_map (fun r => seq (fst r) (snd r - fst r)) l = seq 0 n /\
    (forall r, In r l -> fst r < snd r) /\ length l <= tasks.
Proof. exact chunks_partition. Qed.
Print Assumptions C21_parallelize_partition.

Example C21_case : chunks 10 4 = Some [(0, 3); (3, 6); (6, 8); (8, 10)].
Proof. reflexivity. Qed.

(* C22: a loop run through Parallelize whose body at i rewrites cell i: no schedule gets stuck or
   runs forever, and every schedule ends with every cell below n updated exactly once. *)
Theorem C22_parallel_loop_deterministic : forall (A : Type) (f : nat -> A -> A) n tasks m, 1 <= tasks ->
  exists p, parallelize n tasks (fun i => cell i (f i)) = Some p /\
    Acc (fun c2 c1 => step c1 c2) (p, m) /\
    (forall c, steps (p, m) c -> fst c = Skip \/ exists c', step c c') /\
    forall m', steps (p, m) (Skip, m') ->
      length m' = length m /\
      forall i, nth_error m' i = if i <? n then option_map (f i) (nth_error m i) else nth_error m i.
Proof. exact par_loop_deterministic. Qed.
Print Assumptions C22_parallel_loop_deterministic.

Example C22_case : exists p m', parallelize 3 2 (fun i => cell i (fun x => x + i)) = Some p /\
  steps (p, [5; 5; 5]) (Skip, m') /\ m' = [5; 6; 7].
Proof. exact par_loop_case. Qed.

(* C23: bit reversal; [mirrors k i r] says the k-bit expansion of r is that of i mirrored. *)
Theorem C23_bit_reversal : forall (A : Type) k (a : list A), k < 64 -> length a = 2 ^ k ->
  exists b, bit_reverse a = Some b /\ length b = 2 ^ k /\
    (forall i r, i < 2 ^ k -> mirrors k i r -> nth_error b r = nth_error a i) /\
    nth_error b (2 ^ k - 1) = nth_error a (2 ^ k - 1) /\
    bit_reverse b = Some a /\
    forall cpu, 1 <= cpu ->
      (forall b', steps (br_prog (2 ^ k) cpu, a) (Skip, b') -> b' = b) /\
      Acc (fun c2 c1 => step c1 c2) (br_prog (2 ^ k) cpu, a) /\
      (forall i, fprint (@br_prog A (2 ^ k) cpu) i -> i < 2 ^ k).
Proof. exact @bit_reverse_full. Qed.
Print Assumptions C23_bit_reversal.

Theorem C23_mirror_exists_unique : forall k i, i < 2 ^ k -> exists! r, mirrors k i r.
Proof. exact mirrors_exists_unique. Qed.
Print Assumptions C23_mirror_exists_unique.

Example C23_case : bit_reverse [0;1;2;3;4;5;6;7] = Some [0;4;2;6;1;5;3;7] /\ mirrors 3 3 6.
Proof. split; [vm_compute; reflexivity|]. split; [cbn; lia|]. intros [|[|[|j]]] H; try reflexivity; lia. Qed.

(* C24: ConvertG1/ConvertG2.  [convert_prog] is the goroutine program; every schedule gives b. *)
Theorem C24_lagrange : forall (K : Fld) k (w winv : K) cpu a,
  1 <= cpu -> 1 <= k < 64 -> (w * winv = 1)%F -> (w ^ (2 ^ (k - 1)) = - (1))%F ->
  (fnat (2 ^ k) : K) <> 0%F -> length a = 2 ^ k ->
  exists b p, convert cpu (mk_domain k winv) a = Some b /\ length b = 2 ^ k /\
    convert_prog cpu (mk_domain k winv) (2 ^ k) = Some p /\
    (forall b', steps (p, a) (Skip, b') -> b' = b) /\ Acc (fun c2 c1 => step c1 c2) (p, a) /\
    (forall i, fprint p i -> i < 2 ^ k) /\
    forall c, length c = 2 ^ k ->
      sumn (2 ^ k) (fun j => nth j b 0 * peval c (w ^ j))%F = sumn (2 ^ k) (fun i => nth i c 0 * nth i a 0)%F.
Proof. exact @fft_lagrange. Qed.
Print Assumptions C24_lagrange.

Theorem C24_powers_to_lagrange : forall (K : Fld) k (w winv tau : K) cpu,
  1 <= cpu -> 1 <= k < 64 -> (w * winv = 1)%F -> (w ^ (2 ^ (k - 1)) = - (1))%F ->
  (fnat (2 ^ k) : K) <> 0%F ->
  exists b, convert cpu (mk_domain k winv) (pows (2 ^ k) tau) = Some b /\ length b = 2 ^ k /\
    forall j c, j < 2 ^ k -> lagrange_poly (2 ^ k) w j c -> nth j b 0%F = peval c tau.
Proof. exact @fft_lagrange_tau. Qed.
Print Assumptions C24_powers_to_lagrange.

Example C24_case : (f17 3 * f17 6 = 1 :> F17)%F /\ (f17 3 ^ (2 ^ (4 - 1)) = - (1) :> F17)%F /\
  (fnat (2 ^ 4) : F17) <> 0%F /\
  option_map (map (zv 17)) (convert 3 (mk_domain 4 (f17 6)) (pows 16 (f17 3))) =
    Some [0;1;0;0;0;0;0;0;0;0;0;0;0;0;0;0]%Z.
Proof. exact fft_case. Qed.

(* C25: every split stage has at least one CPU, and no array or twiddle access is out of range
   (the model returns None for a division by zero or an access outside a slice). *)
Theorem C25_split_cpus : forall cpu stage, 1 <= cpu -> stage < maxSplits_of cpu -> 1 <= cpu / 2 ^ stage.
Proof. exact split_cpus. Qed.
Print Assumptions C25_split_cpus.

Theorem C25_no_fault : forall (K : Fld) k (winv : K) cpu,
  1 <= cpu -> k < 64 -> k = 0 \/ (winv ^ (2 ^ (k - 1)) = - (1))%F ->
  exists p, convert_prog cpu (mk_domain k winv) (2 ^ k) = Some p /\ (forall i, fprint p i -> i < 2 ^ k) /\
   forall a, length a = 2 ^ k -> convert cpu (mk_domain k winv) a <> None.
Proof. exact fft_no_fault. Qed.
Print Assumptions C25_no_fault.

Example C25_case : maxSplits_of 6 = 3 /\ 1 <= 6 / 2 ^ 2 /\ (f17 6 ^ (2 ^ (4 - 1)) = - (1) :> F17)%F.
Proof. split; [reflexivity|]. split; [cbn; lia|]. now apply feqb_ok. Qed.
