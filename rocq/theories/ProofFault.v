(** * One wrong bit in the private exponent *)
From Coq Require Import ZifyBool ZifyNat ZifyN Znumtheory.
From Verif Require Import Base BaseLemmas ModelBig ModelRsa SpecEndian SpecBig SpecRsa SpecFault ProofBig ProofRsa ProofFactor.
Local Open Scope N_scope.
Ltac Zify.zify_post_hook ::= idtac.

Lemma flip_clear d i : N.testbit d i = false -> N.lxor d (2 ^ i) = d + 2 ^ i.
Proof.
  intros H. symmetry. apply N.add_nocarry_lxor. apply N.bits_inj. intros j. rewrite N.land_spec, N.bits_0, N.pow2_bits_eqb.
  destruct (N.eqb_spec i j) as [<-|_]; [now rewrite H|apply Bool.andb_false_r].
Qed.
Lemma flip_set d i : N.testbit d i = true -> d = N.lxor d (2 ^ i) + 2 ^ i.
Proof.
  intros H. rewrite <- flip_clear.
  - now rewrite N.lxor_assoc, N.lxor_nilpotent, N.lxor_0_r.
  - now rewrite N.lxor_spec, H, N.pow2_bits_true.
Qed.

Lemma unit_cancel n m a : 1 < n -> N.gcd m n = 1 -> m mod n = (m * a) mod n -> a mod n = 1.
Proof.
  intros Hn G E.
  assert (D : (Z.of_N n | Z.of_N m * (Z.of_N a - 1))%Z).
  { apply (f_equal Z.of_N) in E. rewrite !N2Z.inj_mod, N2Z.inj_mul in E by lia.
    apply Z.mod_divide; [lia|]. replace (Z.of_N m * (Z.of_N a - 1))%Z with (Z.of_N m * Z.of_N a - Z.of_N m)%Z by lia.
    rewrite Zminus_mod, E, Z.sub_diag. reflexivity. }
  apply Z.gauss in D.
  - destruct D as (q & Hq). assert (X : (Z.of_N a mod Z.of_N n = 1)%Z).
    { replace (Z.of_N a) with (1 + q * Z.of_N n)%Z by lia. rewrite Z.mod_add by lia. apply Z.mod_small. lia. }
    rewrite <- N2Z.inj_mod in X by lia. lia.
  - rewrite Z.gcd_comm, <- gcd_Z, G. reflexivity.
Qed.

Lemma gcd_pow_1 c n : 0 < n -> N.gcd c n = 1 -> forall k, N.gcd (c ^ k) n = 1.
Proof.
  intros Hn G. apply N.peano_ind; [now rewrite N.pow_0_r, N.gcd_1_l|]. intros k IH. rewrite N.pow_succ_r'.
  apply N2Z.inj. rewrite gcd_Z, N2Z.inj_mul. apply Zgcd_1_rel_prime. apply rel_prime_sym, rel_prime_mult; apply rel_prime_sym, Zgcd_1_rel_prime;
    rewrite <- gcd_Z; [now rewrite G|now rewrite IH].
Qed.

Lemma fault_bit n c d i : 1 < n -> N.gcd c n = 1 -> c ^ (2 ^ (i + 1)) mod n <> 1 ->
  was_set n c (rsa_power c d n) (rsa_power c (N.lxor d (2 ^ i)) n) i = N.testbit d i.
Proof.
  intros Hn G Hc. unfold was_set, rsa_power. rewrite N.mul_mod_idemp_l, <- N.pow_add_r by lia.
  destruct (N.testbit d i) eqn:E.
  - rewrite <- flip_set by exact E. apply N.eqb_refl.
  - rewrite flip_clear by exact E. apply N.eqb_neq. intros X. apply Hc.
    replace (d + 2 ^ i + 2 ^ i) with (d + 2 ^ (i + 1)) in X by (rewrite N.add_1_r, N.pow_succ_r'; lia).
    rewrite N.pow_add_r in X. apply (unit_cancel n (c ^ d)); [exact Hn| |exact X]. apply gcd_pow_1; [lia|exact G].
Qed.

Lemma with_bits_ok o d k : (forall i, i < N.of_nat k -> o i = N.testbit d i) -> with_bits o k = d mod 2 ^ N.of_nat k.
Proof.
  induction k as [|k IH]; intros H; [now rewrite N.mod_1_r|]. cbn [with_bits]. rewrite IH by (intros; apply H; lia).
  rewrite H by lia. rewrite Nat2N.inj_succ, <- N.add_1_r. symmetry. apply mod_pow2_S.
Qed.

Section Key.
Context (capf : nat -> nat) (k : nat) (n d c : list N).
Context (Cn : canonical n) (Cd : canonical d) (Cc : canonical c) (Hn : 1 < num n) (Kd : countable d)
  (Lc : (length c + 4 <= k)%nat) (Ln : (length n + 4 <= k)%nat) (A : allocates capf k) (G : N.gcd (num c) (num n) = 1).

Lemma one_fault d' i m m' : canonical d' -> countable d' -> num d' = N.lxor (num d) (2 ^ i) ->
  num c ^ (2 ^ (i + 1)) mod num n <> 1 ->
  rsa_decrypt capf {| rsa_exponent := d; rsa_modulo := n |} c = Ok m ->
  rsa_decrypt capf {| rsa_exponent := d'; rsa_modulo := n |} c = Ok m' ->
  was_set (num n) (num c) (num m) (num m') i = N.testbit (num d) i.
Proof using Cn Cd Cc Hn Kd Lc Ln A G.
  intros Cd' Kd' E Hc Em Em'.
  destruct (rsa_encrypt_spec capf k {| rsa_exponent := d; rsa_modulo := n |} c Cd Cn Cc Hn Kd Lc Ln A) as (x & _ & Ex & _ & Nx).
  destruct (rsa_encrypt_spec capf k {| rsa_exponent := d'; rsa_modulo := n |} c Cd' Cn Cc Hn Kd' Lc Ln A) as (y & _ & Ey & _ & Ny).
  cbn [rsa_exponent rsa_modulo] in Nx, Ny. rewrite Em in Ex. rewrite Em' in Ey. apply Ok_inj in Ex, Ey. subst x y.
  rewrite Nx, Ny, E. now apply fault_bit.
Qed.

Lemma all_faults (d' : N -> list N) m (m' : N -> list N) l : num d < 2 ^ N.of_nat l ->
  (forall i, i < N.of_nat l -> canonical (d' i) /\ countable (d' i) /\ num (d' i) = N.lxor (num d) (2 ^ i) /\
    num c ^ (2 ^ (i + 1)) mod num n <> 1 /\
    rsa_decrypt capf {| rsa_exponent := d' i; rsa_modulo := n |} c = Ok (m' i)) ->
  rsa_decrypt capf {| rsa_exponent := d; rsa_modulo := n |} c = Ok m ->
  with_bits (fun i => was_set (num n) (num c) (num m) (num (m' i)) i) l = num d.
Proof using Cn Cd Cc Hn Kd Lc Ln A G.
  intros Hd F Em. rewrite (with_bits_ok _ (num d) l).
  - now apply N.mod_small.
  - intros i Hi. destruct (F i Hi) as (Cd' & Kd' & E & Hc & Em'). exact (one_fault (d' i) i m (m' i) Cd' Kd' E Hc Em Em').
Qed.
End Key.
