(** * A key and two messages: one survives encryption and decryption, one does not *)
From Verif Require Import Base BaseLemmas ModelSha ModelBig ModelRsa SpecEndian SpecBig SpecSha SpecRsa
  SpecOaep SpecMsg ProofBig ProofRsa ProofPrime ProofOaep ProofMsg.
Local Open Scope N_scope.
Local Open Scope list_scope.

(** Two primes of 266 and 265 bits; the modulus has 530 bits, that is 67 bytes. *)
Definition wit_p : N := 2722258935367507707706996859454145692103 * 2 ^ 134 + 1.
Definition wit_q : N := 1361129467683753853853498429727072846229 * 2 ^ 134 + 1.
Definition wit_n : list N := Eval vm_compute in to_le 67 (wit_p * wit_q).
Definition wit_d : list N := Eval vm_compute in to_le 50
  53796872460143928951164982750062747406867610803017141001284888451405820180828262192544158274162604005134575736915143339.
Definition wit_public : public_key := {| pub_n := wit_n; pub_e := [3] |}.
Definition wit_private : private_key := {| priv_n := wit_n; priv_d := wit_d |}.

Lemma wit_p_prime : prime_N wit_p.
Proof. apply (proth_prime 2722258935367507707706996859454145692103 134 3). vm_compute. reflexivity. Qed.

Lemma wit_q_prime : prime_N wit_q.
Proof. apply (proth_prime 1361129467683753853853498429727072846229 134 3). vm_compute. reflexivity. Qed.

Lemma canonical_check a :
  (forallb (fun b => b <? 256) a && negb (last a 1 =? 0))%bool = true -> canonical a.
Proof.
  intros E. apply andb_prop in E as [E1 E2]. split.
  - apply Forall_forall. intros x Hx. rewrite forallb_forall in E1. now apply N.ltb_lt, E1.
  - intros Z. rewrite Z in E2. discriminate.
Qed.

Lemma wit_matching : matching wit_p wit_q (rsa_from_public wit_public) (rsa_from_private wit_private).
Proof.
  split; [exact wit_p_prime|]. split; [exact wit_q_prime|]. split; [vm_compute; discriminate|].
  split; [reflexivity|]. split; [vm_compute; reflexivity|]. unfold key_pair. vm_compute. reflexivity.
Qed.

Lemma wit_allocates : allocates (fun k => k) 71.
Proof. intros k Hk. split; [lia|]. unfold capacity_ok. change (2 ^ 29) with 536870912. lia. Qed.

Lemma wit_sized_public : sized (fun k => k) (rsa_from_public wit_public).
Proof.
  split; [apply canonical_check; vm_compute; reflexivity|].
  split; [apply canonical_check; vm_compute; reflexivity|].
  split; [vm_compute; reflexivity|]. split; [vm_compute; reflexivity|]. exact wit_allocates.
Qed.

Lemma wit_sized_private : sized (fun k => k) (rsa_from_private wit_private).
Proof.
  split; [apply canonical_check; vm_compute; reflexivity|].
  split; [apply canonical_check; vm_compute; reflexivity|].
  split; [vm_compute; reflexivity|]. split; [vm_compute; reflexivity|]. exact wit_allocates.
Qed.

(** The message with the single byte 1: its ciphertext has 66 bytes. *)
Lemma wit_short : rsa_power (be_num (rsa_em [1] 67)) 3 (num wit_n) < 256 ^ 66 /\
  nth 1 (rsa_em [1] 67) 0 <> 0.
Proof. split; vm_compute; [reflexivity|discriminate]. Qed.

(** The empty message: 67 bytes. *)
Lemma wit_full : 256 ^ 66 <= rsa_power (be_num (rsa_em [] 67)) 3 (num wit_n).
Proof. vm_compute. discriminate. Qed.

Lemma wit_fails : exists ct,
  encrypt_message (fun k => k) (rsa_from_public wit_public) [1] rsa_padding = Ok ct /\
  exists r, decrypt_message (fun k => k) (rsa_from_private wit_private) ct rsa_padding = Panic r /\ r <> PFuel.
Proof.
  assert (B : bytes [1]) by (constructor; [reflexivity|constructor]).
  destruct (encrypt_rsa_padding (fun k => k) (rsa_from_public wit_public) [1] wit_sized_public B) as (ct & E & Bc & Hc & Vc).
  { apply Nat.leb_le. vm_compute. reflexivity. }
  exists ct. split; [exact E|].
  change (length (rsa_modulo (rsa_from_public wit_public))) with 67%nat in Vc.
  change (rsa_exponent (rsa_from_public wit_public)) with [3] in Vc. change (num [3]) with 3 in Vc.
  change (rsa_modulo (rsa_from_public wit_public)) with wit_n in Vc.
  destruct wit_short as [W1 W2].
  assert (L : (length ct <= 66)%nat) by (apply minimal_length; [exact Bc|exact Hc|rewrite Vc; exact W1]).
  assert (L' : (length ct < length (rsa_modulo (rsa_from_public wit_public)))%nat)
    by (change (length (rsa_modulo (rsa_from_public wit_public))) with 67%nat; lia).
  rewrite (message_short_panics (fun k => k) wit_p wit_q _ _ [1] ct wit_matching wit_sized_public
    wit_sized_private B E L' W2).
  eexists. split; [reflexivity|]. destruct (_ =? _)%nat; discriminate.
Qed.

Lemma wit_works : exists ct,
  encrypt_message (fun k => k) (rsa_from_public wit_public) [] rsa_padding = Ok ct /\
  length ct = length wit_n /\
  decrypt_message (fun k => k) (rsa_from_private wit_private) ct rsa_padding = Ok [].
Proof.
  assert (B : bytes []) by constructor.
  destruct (encrypt_rsa_padding (fun k => k) (rsa_from_public wit_public) [] wit_sized_public B) as (ct & E & Bc & Hc & Vc).
  { apply Nat.leb_le. vm_compute. reflexivity. }
  exists ct. split; [exact E|].
  assert (L : length ct = length wit_n).
  { pose proof wit_full as W. change (length (rsa_modulo (rsa_from_public wit_public))) with 67%nat in Vc.
    destruct (decrypt_ciphertext _ wit_p wit_q _ _ [] ct wit_matching wit_sized_public wit_sized_private B E) as [L _].
    change (length (rsa_modulo (rsa_from_public wit_public))) with 67%nat in L.
    change (length wit_n) with 67%nat.
    pose proof (be_num_lt ct Bc) as U. rewrite Vc in U.
    change (rsa_exponent (rsa_from_public wit_public)) with [3] in U. change (num [3]) with 3 in U.
    change (rsa_modulo (rsa_from_public wit_public)) with wit_n in U.
    assert (256 ^ 66 < 256 ^ N.of_nat (length ct)) by (apply N.le_lt_trans with (1 := W) (2 := U)).
    apply N.pow_lt_mono_r_iff in H; [lia|reflexivity]. }
  split; [exact L|].
  exact (message_roundtrip (fun k => k) wit_p wit_q _ _ [] ct wit_matching wit_sized_public wit_sized_private B E L).
Qed.

Lemma message_roundtrip_fails : exists capf p q enc dec msg ct r,
  matching p q enc dec /\ sized capf enc /\ sized capf dec /\ bytes msg /\
  encrypt_message capf enc msg rsa_padding = Ok ct /\
  decrypt_message capf dec ct rsa_padding = Panic r /\ r <> PFuel.
Proof.
  destruct wit_fails as (ct & E & r & D & Hr).
  exists (fun k => k), wit_p, wit_q, (rsa_from_public wit_public), (rsa_from_private wit_private), [1], ct, r.
  split; [exact wit_matching|]. split; [exact wit_sized_public|]. split; [exact wit_sized_private|].
  split; [constructor; [reflexivity|constructor]|]. split; [exact E|]. split; [exact D|exact Hr].
Qed.
