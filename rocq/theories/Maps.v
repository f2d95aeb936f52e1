(** Finite maps with text keys: the model of [std::collections::HashMap<String, V>].
    The iteration order of a [HashMap] is never observed by the modelled code. *)
From Verif Require Import Text TextFacts.

Section Maps.
Context {V : Type}.
Definition tmap := list (text * V).

(** [HashMap::get]. *)
Fixpoint mget (k : text) (m : tmap) : option V :=
  match m with
  | [] => None
  | (k', v) :: r => if text_eqb k k' then Some v else mget k r
  end.
(** [HashMap::contains_key]. *)
Definition mhas (k : text) (m : tmap) : bool := match mget k m with Some _ => true | None => false end.
(** [HashMap::insert]: replaces the value of an existing key. *)
Fixpoint mput (k : text) (v : V) (m : tmap) : tmap :=
  match m with
  | [] => [(k, v)]
  | (k', v') :: r => if text_eqb k k' then (k', v) :: r else (k', v') :: mput k v r
  end.
(** [HashMap::entry(k).or_insert(v)]. *)
Definition mput_new (k : text) (v : V) (m : tmap) : tmap := if mhas k m then m else mput k v m.
Definition mkeys (m : tmap) : list text := map fst m.
(** [HashMap::len]. *)
Definition mlen (m : tmap) : nat := length m.

Lemma mget_mput_same k v m : mget k (mput k v m) = Some v.
Proof.
  induction m as [|[k' v'] m IH]; cbn [mput mget].
  - rewrite text_eqb_refl. reflexivity.
  - destruct (text_eqb k k') eqn:E; cbn [mget]; rewrite E; [reflexivity|exact IH].
Qed.

Lemma mget_mput_other k k2 v m : k2 <> k -> mget k2 (mput k v m) = mget k2 m.
Proof.
  intros Hn. induction m as [|[k' v'] m IH]; cbn [mput mget].
  - destruct (text_eqb_spec k2 k); [contradiction|reflexivity].
  - destruct (text_eqb_spec k k') as [->|Hk]; cbn [mget]; destruct (text_eqb_spec k2 k') as [E|_]; congruence.
Qed.

Lemma mget_mput k k2 v m : mget k2 (mput k v m) = if text_eqb k2 k then Some v else mget k2 m.
Proof.
  destruct (text_eqb_spec k2 k) as [->|H]; [apply mget_mput_same|apply mget_mput_other, H].
Qed.

Lemma mget_in k m v : mget k m = Some v -> In (k, v) m.
Proof.
  induction m as [|[k' v'] m IH]; cbn [mget]; [discriminate|].
  destruct (text_eqb_spec k k') as [->|]; intros H; [injection H as ->; left; reflexivity|right; auto].
Qed.

Lemma mget_none k m : mget k m = None <-> ~ In k (mkeys m).
Proof.
  induction m as [|[k' v'] m IH]; cbn; [tauto|].
  destruct (text_eqb_spec k k') as [->|Hn]; [split; [discriminate|intros H; exfalso; apply H; left; reflexivity]|].
  rewrite IH. intuition congruence.
Qed.

Lemma mhas_in k m : mhas k m = true <-> In k (mkeys m).
Proof.
  unfold mhas. destruct (mget k m) eqn:E.
  - split; [|reflexivity]. intros _. apply mget_in in E. apply (in_map fst) in E. exact E.
  - apply mget_none in E. split; [discriminate|contradiction].
Qed.

Lemma mput_fresh k v m : mget k m = None -> mput k v m = m ++ [(k, v)].
Proof.
  induction m as [|[k' v'] m IH]; cbn [mget mput app]; [reflexivity|].
  destruct (text_eqb k k'); [discriminate|]. intros H. rewrite IH by exact H. reflexivity.
Qed.

Lemma mkeys_mput_in k v m x : In x (mkeys (mput k v m)) <-> x = k \/ In x (mkeys m).
Proof.
  induction m as [|[k' v'] m IH]; cbn; [intuition congruence|].
  destruct (text_eqb_spec k k') as [->|Hn]; cbn; [intuition congruence|].
  fold (mkeys (mput k v m)). rewrite IH. intuition congruence.
Qed.

Lemma mput_nodup k v m : NoDup (mkeys m) -> NoDup (mkeys (mput k v m)).
Proof.
  induction m as [|[k' v'] m IH]; cbn; intros H.
  - constructor; [easy|constructor].
  - inversion H as [|? ? Hn Hd]; subst. destruct (text_eqb_spec k k') as [->|Hne]; cbn; [constructor; assumption|].
    constructor; [|apply IH, Hd]. fold (mkeys (mput k v m)). rewrite mkeys_mput_in. intuition congruence.
Qed.
End Maps.
Arguments tmap V : clear implicits.
