(** C27: web paths.  [clean fs s]: the segment [s] has no '/' and no blank, is neither "." nor "..", and
    has no backslash when this is the separator of the resolver. *)
From Verif Require Import Text TextFacts Regex Path_Model Path_Proof.

Theorem C27_resolved_path_shape : forall U fs target start, exists pre root n segs,
  web_path U fs target start = Ok (pre ++ root ++ join (lit "/") (repeat (lit "..") n ++ segs)) /\
  (start = None -> pre = []) /\ ~ In SP pre /\ (fs = BSL -> ~ In BSL pre) /\
  (root = [] \/ root = lit "/" \/ root = lit "./") /\ (root = lit "/" -> n = 0) /\ Forall (clean fs) segs.
Proof.
  intros U fs target start. destruct (web_path_ok U fs target start) as (pre & root & n & segs & E & H1 & H2 & H3 & H4 & H5 & H6).
  exists pre, (root_text root), n, segs. repeat (split; [assumption|]). split; [destruct H4 as [->|[->| ->]]; auto|]. split; [|assumption].
  destruct H4 as [->|[->| ->]]; [discriminate|intros _; apply H5; reflexivity|discriminate].
Qed.
Theorem C27_resolving_is_idempotent : forall U fs target o, web_path U fs target None = Ok o -> web_path U fs o None = Ok o.
Proof. exact web_path_idem. Qed.
Theorem C27_no_empty_segment_refuted : exists U fs target o, web_path U fs target None = Ok o /\ contains (lit "//") o = true.
Proof. exists ascii_only, 47%N, (lit "a//b"), (lit "a//b"). vm_compute. split; reflexivity. Qed.
(** An empty segment can turn a relative path into an absolute one. *)
Theorem C27_relative_stays_relative_refuted : exists U fs target o,
  is_web_root target = false /\ web_path U fs target None = Ok o /\ is_web_root o = true.
Proof. exists ascii_only, 47%N, (lit "a/..//etc"), (lit "/etc"). vm_compute. repeat split. Qed.
(** Backslashes are only converted when the backslash is the file separator. *)
Theorem C27_no_backslash_refuted : exists U fs target o, web_path U fs target None = Ok o /\ In BSL o.
Proof. exists ascii_only, 47%N, (lit "a\b"), (lit "a\b"). split; [vm_compute; reflexivity|]. cbn. auto. Qed.
Example C27_example : web_path ascii_only 47%N (lit "../x/./y z/../w") (Some (lit "https://e.org/a/b")) = Ok (lit "https://e.org/a/x/w") /\
  web_path ascii_only BSL (lit "..\x") None = Ok (lit "../x") /\ web_path ascii_only 47%N (lit "/../../x y") None = Ok (lit "/x%20y").
Proof. vm_compute. repeat split. Qed.
Print Assumptions C27_resolved_path_shape.
Print Assumptions C27_resolving_is_idempotent.
Print Assumptions C27_no_empty_segment_refuted.
Print Assumptions C27_relative_stays_relative_refuted.
Print Assumptions C27_no_backslash_refuted.
