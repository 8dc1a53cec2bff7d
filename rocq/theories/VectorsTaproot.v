(** The vectors of BIP-341 (bip-0341/wallet-test-vectors.json, "keyPathSpending") and BIP-143 for the digests. *)
From Coq Require Import String.
From Verif Require Import Base Consensus RealExt RealSign V0Sign RealTaproot Vectors.
Local Open Scope N_scope.
Local Open Scope string_scope.

(** "rawUnsignedTx" and "utxosSpent"; for src/v0/bitcoin/mod.rs:602-611. *)
Definition bip341_tx : string := "02000000097de20cbff686da83a54981d2b9bab3586f4ca7e48f57f5b55963115f3b334e9c010000000000000000d7b7cab57b1393ace2d064f4d4a2cb8af6def61273e127517d44759b6dafdd990000000000fffffffff8e1f583384333689228c5d28eac13366be082dc57441760d957275419a418420000000000fffffffff0689180aa63b30cb162a73c6d2a38b7eeda2a83ece74310fda0843ad604853b0100000000feffffffaa5202bdf6d8ccd2ee0f0202afbbb7461d9264a25e5bfd3c5a52ee1239e0ba6c0000000000feffffff956149bdc66faa968eb2be2d2faa29718acbfe3941215893a2a3446d32acd050000000000000000000e664b9773b88c09c32cb70a2a3e4da0ced63b7ba3b22f848531bbb1d5d5f4c94010000000000000000e9aa6b8e6c9de67619e6a3924ae25696bb7b694bb677a632a74ef7eadfd4eabf0000000000ffffffffa778eb6a263dc090464cd125c466b5a99667720b1c110468831d058aa1b82af10100000000ffffffff0200ca9a3b000000001976a91406afd46bcdfd22ef94ac122aa11f241244a37ecc88ac807840cb0000000020ac9a87f5594be208f8532db38cff670c450ed2fea8fcdefcc9a663f78bab962b0065cd1d".
Definition bip341_utxos : list txout := [
  TxOut 420000000 (hex "512053a1f6e454df1aa2776a2814a721372d6258050de330b3c6d10ee8f4e0dda343");
  TxOut 462000000 (hex "5120147c9c57132f6e7ecddba9800bb0c4449251c92a1e60371ee77557b6620f3ea3");
  TxOut 294000000 (hex "76a914751e76e8199196d454941c45d1b3a323f1433bd688ac");
  TxOut 504000000 (hex "5120e4d810fd50586274face62b8a807eb9719cef49c04177cc6b76a9a4251d5450e");
  TxOut 630000000 (hex "512091b64d5324723a985170e4dc5a0f84c041804f2cd12660fa5dec09fc21783605");
  TxOut 378000000 (hex "00147dd65592d0ab2fe0d0257d571abf032cd9db93dc");
  TxOut 672000000 (hex "512075169f4001aa68f15bbed28b218df1d0a62cbbcf1188c6665110c293c907b831");
  TxOut 546000000 (hex "5120712447206d7a5238acc7ff53fbe94a3b64539ad291c7cdbc490b7577e4b17df5");
  TxOut 588000000 (hex "512077e30a5522dd9f894c3f8b8bd4c4b2cf82ca7da8a3ea6a239655c39c050ab220")].
(** "txinIndex", "hashType" and "sigHash"; with ANYONECANPAY one output is given
    (src/v0/bitcoin/mod.rs:588-600). *)
Definition bip341_cases : list (N * N * string) := [
  (0, 3, "2514a6272f85cfa0f45eb907fcb0d121b808ed37c6ea160a5a9046ed5526d555");
  (1, 131, "325a644af47e8a5a2591cda0ab0723978537318f10e6a63d4eed783b96a71a4d");
  (3, 1, "bf013ea93474aa67815b1b6cc441d23b64fa310911d991e713cd34c7f5d46669");
  (4, 0, "4f900a0bae3f1446fd48490c2958b5a023228f01661cda3496a11da502a7f7ef");
  (6, 2, "15f25c298eb5cdc7eb1d638dd2d45c97c4c59dcaec6679cfc16ad84f30876b85");
  (7, 130, "cd292de50313804dabe4685e83f923d2969577191a3e1d2882220dca88cbeb10");
  (8, 129, "cccb739eca6c13a8a89e6e5cd317ffe55669bbda23f2fd37b0f18755e008edd2")].
(** Whether a case is computed as published (src/v0/bitcoin/mod.rs:602-611). *)
Definition bip341_ok (c : N * N * string) : bool :=
  let '(n, ty, h) := c in
  match dec_tx (hex bip341_tx), nth_error bip341_utxos (N.to_nat n) with
  | Ok (t, []), Some u => bytes_eqb (real_taproot t n (if (128 <=? ty)%N then PrevoutsOne n u else PrevoutsAll bip341_utxos) None ty) (hex h)
  | _, _ => false
  end.
Example bip341_vectors : forallb bip341_ok bip341_cases = true.
Proof. vm_compute. reflexivity. Qed.

(** BIP-143: transaction, input, script code, amount, type and hash; native P2WPKH, P2SH-P2WPKH and the
    six types for P2SH-P2WSH.  For src/v2/mod.rs:857, 863, 869. *)
Definition bip143_tx : string := "010000000136641869ca081e70f394c6948e8af409e18b619df2ed74aa106c1ca29787b96e0100000000ffffffff0200e9a435000000001976a914389ffce9cd9ae88dcc0631e88a821ffdbe9bfe2688acc0832f05000000001976a9147480a33f950689af511e6e84c138dbbd3c3ee41588ac00000000".
Definition bip143_script : string := "56210307b8ae49ac90a048e9b53357a2354b3334e9c8bee813ecb98e99a7e07e8c3ba32103b28f0c28bfab54554ae8c658ac5c3e0ce6e79ad336331f78c428dd43eea8449b21034b8113d703413d57761b8b9781957b8c0ac1dfe69f492580ca4195f50376ba4a21033400f6afecb833092a9a21cfdf1ed1376e58c5d1f47de74683123987e967a8f42103a6d48b1131e94ba04d9737d61acdaa1322008af9602b3b14862c07a1789aac162102d8b661b0b3302ee2f162b09e07a55ad5dfbe673a9f01d9f0c19617681024306b56ae".
Definition bip143_cases : list (string * N * string * N * N * string) := [
  ("0100000002fff7f7881a8099afa6940d42d1e7f6362bec38171ea3edf433541db4e4ad969f0000000000eeffffffef51e1b804cc89d182d279655c3aa89e815b1b309fe287d9b2b55d57b90ec68a0100000000ffffffff02202cb206000000001976a9148280b37df378db99f66f85c95a783a76ac7a6d5988ac9093510d000000001976a9143bde42dbee7e4dbe6a21b2d50ce2f0167faa815988ac11000000",
   1, "76a9141d0f172a0ecb48aee1be1f2687d2963ae33f71a188ac", 600000000, 1, "c37af31116d1b27caf68aae9e3ac82f1477929014d5b917657d0eb49478cb670");
  ("0100000001db6b1b20aa0fd7b23880be2ecbd4a98130974cf4748fb66092ac4d3ceb1a54770100000000feffffff02b8b4eb0b000000001976a914a457b684d7f0d539a46a45bbc043f35b59d0d96388ac0008af2f000000001976a914fd270b1ee6abcaea97fea7ad0402e8bd8ad6d77c88ac92040000",
   0, "76a91479091972186c449eb1ded22b78e40d009bdf008988ac", 1000000000, 1, "64f3b0f4dd2bb3aa1ce8566d220cc74dda9df97d8490cc81d89d735c92e59fb6");
  (bip143_tx, 0, bip143_script, 987654321, 1, "185c0be5263dce5b4bb50a047973c1b6272bfbd0103a89444597dc40b248ee7c");
  (bip143_tx, 0, bip143_script, 987654321, 2, "e9733bc60ea13c95c6527066bb975a2ff29a925e80aa14c213f686cbae5d2f36");
  (bip143_tx, 0, bip143_script, 987654321, 3, "1e1f1c303dc025bd664acb72e583e933fae4cff9148bf78c157d1e8f78530aea");
  (bip143_tx, 0, bip143_script, 987654321, 129, "2a67f03e63a6a422125878b40b82da593be8d4efaafe88ee528af6e5a9955c6e");
  (bip143_tx, 0, bip143_script, 987654321, 130, "781ba15f3779d5542ce8ecb5c18716733a5ee42a6f51488ec96154934e2c890a");
  (bip143_tx, 0, bip143_script, 987654321, 131, "511e8e52ed574121fc1b654970395502128263f62662e076dc6baf05c2e6a99b")].
(** Whether a case is computed as published (src/v2/mod.rs:857, 863, 869). *)
Definition bip143_ok (c : string * N * string * N * N * string) : bool :=
  let '(t, n, code, value, ty, h) := c in
  match dec_tx (hex t) with Ok (t, []) => bytes_eqb (real_segwit t n (hex code) value ty) (hex h) | _ => false end.
Example bip143_vectors : map bip143_ok bip143_cases = repeat true 8.
Proof. vm_compute. reflexivity. Qed.
