From Coq Require Import ZifyBool ZifyNat Lia.
From Verif Require Import Py PyLemmas RmfModel FileModel.
Ltac Zify.zify_post_hook ::= Z.div_mod_to_equations.

Lemma nth_splice (l d : bytes) off k :
  0 <= off -> off + len d <= len l -> (0 <= k) ->
  nth_error (splice l off (off + len d) d) (Z.to_nat k) =
  if (off <=? k) && (k <? off + len d) then nth_error d (Z.to_nat (k - off)) else nth_error l (Z.to_nat k).
Proof.
  intros Ho Hl Hk. pose proof (len_nonneg d). rewrite splice_in by lia.
  assert (Lf : length (firstn (Z.to_nat off) l) = Z.to_nat off)
    by (rewrite firstn_length; unfold len in *; lia).
  destruct (Z.leb_spec off k); cbn [andb].
  - rewrite nth_error_app2 by lia. rewrite Lf.
    replace (Z.to_nat k - Z.to_nat off)%nat with (Z.to_nat (k - off)) by lia.
    destruct (Z.ltb_spec k (off + len d)).
    + rewrite nth_error_app1; auto. unfold len in *; lia.
    + rewrite nth_error_app2 by (unfold len in *; lia). rewrite nth_error_skipn.
      f_equal. unfold len in *; lia.
  - rewrite nth_error_app1 by lia. rewrite nth_error_firstn.
    replace (Nat.ltb (Z.to_nat k) (Z.to_nat off)) with true; auto. symmetry. apply Nat.ltb_lt. lia.
Qed.
