(* Spec2.v -- what a phase-2 file is (docs/Format.md), written without reference to the programs. *)
From Verif Require Import Base Fld IO Ext Spec1 Gob Circuit.
Local Open Scope fld_scope.

Section Spec2.
Context {E : Ext}.

(* a phase-2 record *)
Record contrib2 := mkC2 { d_delta : E; d_key : key E; d_hash : bytes }.
Definition rec2_vals (c : contrib2) : list (E + E) := inl (d_delta c) :: key_vals (d_key c).
Definition rec2_bytes (c : contrib2) : bytes := enc_vals (rec2_vals c) ++ d_hash c.
Definition recs2_bytes (l : list contrib2) : bytes := flat_map rec2_bytes l.

(* the parameters: [delta]_1, [delta]_2, Z, PKK *)
Record par2 := mkPar2 { p_d1 : E; p_d2 : E; p_Z : list E; p_K : list E }.
Definition par2_bytes (q : par2) : bytes := g1c (p_d1 q) ++ g2c (p_d2 q) ++ enc1 (p_Z q) ++ enc1 (p_K q).
Definition is_par2 (b : bytes) (q : par2) : Prop :=
  exists b1 b2 b3 b4, b = b1 ++ b2 ++ b3 ++ b4 /\ is1 b1 (p_d1 q) /\ is2 b2 (p_d2 q) /\
    are1 b3 (p_Z q) /\ are1 b4 (p_K q).
Definition sized2 (h : hdr) (q : par2) : Prop :=
  (h_domain h - 1 = Z.of_nat (length (p_Z q)))%Z /\ h_witness h = Z.of_nat (length (p_K q)).

(* Records starting at file offset [off], each of whose 32-byte hashes lies inside one 4096-byte
   block of the file (so that one buffered Read returns it whole). *)
Inductive recs2_at : nat -> bytes -> list contrib2 -> Prop :=
| recs2_nil off : recs2_at off [] []
| recs2_cons off pb c t l : are_vals pb (rec2_vals c) -> length (d_hash c) = 32%nat ->
    ((off + length pb) mod N.to_nat 4096 <= N.to_nat 4064)%nat ->
    recs2_at (off + length pb + 32) t l ->
    recs2_at off (pb ++ d_hash c ++ t) (c :: l).

(* the file the tool writes *)
Definition head2 (h : hdr) (q : par2) : bytes := gob_hdr h ++ par2_bytes q.
Definition file2 (h : hdr) (q : par2) (l : list contrib2) : bytes := head2 h q ++ recs2_bytes l.
(* offset of the i-th hash in such a file *)
Definition hash_off (h : hdr) (q : par2) (i : nat) : nat := (length (head2 h q) + 192 * i + 160)%nat.
(* no hash of the n records straddles a block boundary *)
Definition unsplit (h : hdr) (q : par2) (n : nat) : Prop :=
  forall i, (i < n)%nat -> (hash_off h q i mod N.to_nat 4096 <= N.to_nat 4064)%nat.

(* b is a readable phase-2 file with these contents, possibly followed by other bytes *)
Definition is_file2 (b : bytes) (h : hdr) (q : par2) (l : list contrib2) : Prop :=
  exists pb rb junk, b = gob_hdr h ++ pb ++ rb ++ junk /\ is_par2 pb q /\ sized2 h q /\
    h_contribs h = Z.of_nat (length l) /\ recs2_at (length (gob_hdr h) + length pb) rb l.

(* what one contribution with secret d does *)
Definition upd_par2 (d : E) (q : par2) : par2 :=
  mkPar2 (d * p_d1 q) (d * p_d2 q) (map (fun x => x / d) (p_Z q)) (map (fun x => x / d) (p_K q)).
(* the record it appends: key base s, tag 1 *)
Definition new_rec2 (d s : E) (d1 : E) (prev : bytes) : contrib2 :=
  let c h := mkC2 d1 (mk_key d s prev 1) h in c (sha E (enc_vals (rec2_vals (c [])))).
Definition last_hash2 (l : list contrib2) : bytes := last (map d_hash l) [].

(* ---- accepted chains ---- *)
Definition prev_delta (o : E) (l : list contrib2) (i : nat) : E := last (map d_delta (firstn i l)) o.
Definition prev_hash (l : list contrib2) (i : nat) : bytes := last (map d_hash (firstn i l)) [].
(* a record whose key and challenge are not the identity *)
Definition live2 (c : contrib2) (prev : bytes) : Prop := kS (d_key c) <> 0 /\ chal (kS (d_key c)) (kSX (d_key c)) prev 1 <> 0.
Definition hash_good2 (c : contrib2) : Prop := d_hash c = sha E (enc_vals (rec2_vals c)).

(* record c continues a chain whose last delta and hash are prev and ph *)
Definition linked2 (prev : E) (c : contrib2) (x : E) : Prop :=
  d_delta c = x * prev /\ kSX (d_key c) = x * kS (d_key c).
(* the two records at position i of two chains are explicit collision evidence *)
Definition collision2_at (l1 l2 : list contrib2) (i : nat) : Prop :=
  exists c1 c2, nth_error l1 i = Some c1 /\ nth_error l2 i = Some c2 /\
  ((enc_vals (rec2_vals c1) <> enc_vals (rec2_vals c2) /\
    sha E (enc_vals (rec2_vals c1)) = sha E (enc_vals (rec2_vals c2))) \/
   (let m l := g1r (kS (d_key c1)) ++ g1r (kSX (d_key c1)) ++ prev_hash l i in
    m l1 <> m l2 /\ h2g2 E (m l1) [b8 1] = h2g2 E (m l2) [b8 1])).

(* the hash of a record after a read that stopped after j bytes *)
Definition cut_hash (j : nat) (c : contrib2) : contrib2 :=
  mkC2 (d_delta c) (d_key c) (firstn j (d_hash c) ++ repeat (b8 0) (32 - j)).

(* ---- random combinations: the scalar of entry k of a section of n entries read in batches of bs
   (rho m = the scalars sampled for the batch that starts with m entries to go) ---- *)
Definition scal_of (bs n : nat) (rho : nat -> nat -> E) (k : nat) : E := rho (n - bs * (k / bs))%nat (k mod bs)%nat.
Definition agg (bs : nat) (rho : nat -> nat -> E) (l : list E) : E :=
  sumn (length l) (fun k => nth k l 0 * scal_of bs (length l) rho k).
End Spec2.
Arguments contrib2 : clear implicits.
Arguments par2 : clear implicits.
