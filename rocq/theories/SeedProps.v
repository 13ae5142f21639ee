(* C142: a first backup moved to another place. *)
From Verif Require Import Bytes PathcmpModel PathcmpProofs CmdModel RestoreModel AuthModel SeedModel SeedProofs.

(* An entry below the directory that is taken out comes out at the same place below the
   other one, with all that it had; its data is still under its path or a number. *)
Theorem C142_entry_partial : forall src dir dst e x, seed_ok src dir dst -> m_path e = under dir x -> hd0 x <> slash -> data_ok e ->
  exists e', copy_entry (Some (src, dst)) e = Some e' /\ m_path e' = under dst x /\ data_ok e' /\
  m_cmd e' = m_cmd e /\ m_link e' = m_link e /\ m_rest e' = m_rest e /\
  match m_data e with None => m_data e' = None | Some d => exists d', m_data e' = Some d' /\ (hd0 d <> 116 -> d' = d) end.
Proof. exact seeded. Qed.
Print Assumptions C142_entry_partial.
(* ... and is where the renaming of the directory in the tree puts it. *)
Theorem C142_data : forall src dir dst x, seed_ok src dir dst -> hd0 x <> slash ->
  renamed (move_from src) (move_to dst) (prepend_s (str "t") (under dir x)) (prepend_s (str "t") (under dst x)).
Proof. exact found_again. Qed.
Print Assumptions C142_data.
Theorem C142_order : forall a b x y, path_lt (under a x) (under a y) <-> path_lt (under b x) (under b y).
Proof. exact order_stays. Qed.
Print Assumptions C142_order.
Theorem C142_none : forall e, copy_entry None e = Some e.
Proof. reflexivity. Qed.
Print Assumptions C142_none.

Definition ex_ent : ment := mkment (str "/mnt/disk/etc/fstab") CMD_FILE (Some (str "t/mnt/disk/etc/fstab")) None (str "stat").
Example C142_ex_hyp : seed_ok (str "/mnt/disk") (str "/mnt/disk") (str "/srv") /\ m_path ex_ent = under (str "/mnt/disk") (str "etc/fstab") /\ data_ok ex_ent.
Proof. repeat split; try discriminate; auto; try (left; reflexivity). Qed.
Example C142_ex_run : copy_entry (Some (str "/mnt/disk", str "/srv")) ex_ent = Some (mkment (str "/srv/etc/fstab") CMD_FILE (Some (str "t/srv/etc/fstab")) None (str "stat")).
Proof. vm_compute. reflexivity. Qed.
(* From Windows to Windows: a slash is put before the first. *)
Example C142_ex_windows : seed_ok (str "/D:/old") (str "D:/old") (str "C:/new") /\
  copy_entry (Some (str "/D:/old", str "C:/new")) (mkment (str "D:/old/a") CMD_FILE (Some (str "t/D:/old/a")) None []) =
  Some (mkment (str "C:/new/a") CMD_FILE (Some (str "t/C:/new/a")) None []).
Proof. split; [|vm_compute; reflexivity]. repeat split; try discriminate. right. split; [reflexivity|discriminate]. Qed.

(* The directory itself comes out with a slash at its end, so that the next backup does
   not know it. *)
Theorem C142_dir_refuted : forall src dst e, m_path e = src -> m_data e = None ->
  exists e', copy_entry (Some (src, dst)) e = Some e' /\ m_path e' = dst ++ [slash] /\ m_path e' <> dst.
Proof.
  intros src dst e p d. eexists. split; [apply dir_itself; auto|]. cbn [m_path]. split; auto.
  intros h. assert (L : List.length (dst ++ [slash]) = List.length dst) by (rewrite h; auto). rewrite app_length in L. cbn in L. lia.
Qed.
Print Assumptions C142_dir_refuted.
(* A hard link still names the old path of its file, which the backup does not have. *)
Definition ex_file : ment := mkment (str "/mnt/a") CMD_FILE None None [].
Definition ex_hard : ment := mkment (str "/mnt/b") CMD_HARD_LINK None (Some (str "/mnt/a")) [].
Theorem C142_link_refuted : exists a b, copy_entry (Some (str "/mnt", str "/srv")) ex_file = Some a /\
  copy_entry (Some (str "/mnt", str "/srv")) ex_hard = Some b /\ m_link ex_hard = Some (m_path ex_file) /\ m_link b <> Some (m_path a).
Proof. eexists _, _. repeat split. intros h. vm_compute in h. discriminate h. Qed.
Print Assumptions C142_link_refuted.
(* The directory itself, of Windows, and any path that is shorter than the directory and
   not in it, which the server does not look at: the server reads past the end of the
   path. *)
Theorem C142_past_refuted : forall src dst e, (List.length (m_path e) < List.length src)%nat -> copy_entry (Some (src, dst)) e = None.
Proof.
  intros src dst e h. unfold copy_entry, seed_path, skip. apply Nat.ltb_lt in h. rewrite h. auto.
Qed.
Print Assumptions C142_past_refuted.
Example C142_ex_past : copy_entry (Some (str "/C:/foo", str "/srv")) (mkment (str "C:/foo") CMD_DIRECTORY None None []) = None.
Proof. vm_compute. reflexivity. Qed.
