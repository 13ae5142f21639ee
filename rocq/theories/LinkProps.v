(* C42: hard-linked data is sent once. *)
From Verif Require Import Bytes LinkModel LinkProofs.

Theorem C42_send_exact : forall l n f, nth_error l n = Some f ->
  nth_error (send_files linkhash_init l) n = Some (to_send (firstn n l) f).
Proof. exact send_exact. Qed.
Theorem C42_send_length : forall l t, List.length (send_files t l) = List.length l.
Proof. exact send_length. Qed.
Theorem C42_data_once : forall l n m f g, nth_error l n = Some f -> nth_error l m = Some g -> linked f = true -> linked g = true ->
  same_inode f g = true -> (exists a, nth_error (send_files linkhash_init l) n = Some [SFile a]) ->
  (exists b, nth_error (send_files linkhash_init l) m = Some [SFile b]) -> n = m.
Proof. exact data_once. Qed.
Theorem C42_bucket_in_range : forall dev ino, 0 <= get_hash dev ino < 65536.
Proof. exact bucket_in_range. Qed.

(* Inodes 5 and 65540 of devices 8 and 8: same hash (5 xor 8; 65540 = 2^16 + 4). *)
Example ex_C42 :
  get_hash 8 5 = get_hash 8 65540 /\
  send_files linkhash_init [mkfile 8 5 2 true (str "/a"); mkfile 8 65540 2 true (str "/b"); mkfile 8 5 2 true (str "/c");
    mkfile 8 65540 2 true (str "/d"); mkfile 8 5 2 true (str "/a"); mkfile 9 5 1 true (str "/e"); mkfile 8 5 2 false (str "/f")] =
  [[SFile (str "/a")]; [SFile (str "/b")]; [SLink (str "/c") (str "/a")]; [SLink (str "/d") (str "/b")]; []; [SFile (str "/e")]; [SFile (str "/f")]].
Proof. split; reflexivity. Qed.

Print Assumptions C42_bucket_in_range.
Print Assumptions C42_send_exact.
Print Assumptions C42_send_length.
Print Assumptions C42_data_once.
