(** Facts about strings: positions, prefixes and suffixes. *)
From Coq Require Import String Ascii List Arith Bool Lia.
From Verif Require Import Str Lexer LexSpec.
Import ListNotations.
Local Open Scope string_scope.
Local Open Scope nat_scope.

Lemma get_some s i : i < String.length s -> exists c, String.get i s = Some c.
Proof.
  revert i; induction s as [|c s IH]; intros i Hi; cbn in *; [lia|].
  destruct i as [|i]; [eauto | apply IH; lia].
Qed.

Lemma get_none s i : String.length s <= i -> String.get i s = None.
Proof.
  revert i; induction s as [|c s IH]; intros i Hi; cbn in *; [destruct i; reflexivity|].
  destruct i as [|i]; [lia | apply IH; lia].
Qed.

Lemma get_lt s i c : String.get i s = Some c -> i < String.length s.
Proof.
  intros H. destruct (le_lt_dec (String.length s) i) as [Hle|Hlt]; [|exact Hlt].
  rewrite (get_none s i Hle) in H; discriminate.
Qed.

Lemma sdrop_0 s : sdrop 0 s = s.
Proof. destruct s; reflexivity. Qed.

Lemma sdrop_empty n : sdrop n "" = "".
Proof. destruct n; reflexivity. Qed.

Lemma sdrop_sdrop a b s : sdrop a (sdrop b s) = sdrop (b + a) s.
Proof.
  revert s; induction b as [|b IH]; intros s; cbn [Nat.add]; [now rewrite ?sdrop_0|].
  destruct s as [|c s]; cbn [sdrop]; [now rewrite sdrop_empty | apply IH].
Qed.

Lemma sdrop_length n s : String.length (sdrop n s) = String.length s - n.
Proof.
  revert s; induction n as [|n IH]; intros s; cbn; [rewrite ?sdrop_0; lia|].
  destruct s as [|c s]; cbn; [reflexivity | apply IH].
Qed.

Lemma sdrop_all n s : String.length s <= n -> sdrop n s = "".
Proof.
  intros H. assert (Hl : String.length (sdrop n s) = 0) by (rewrite sdrop_length; lia).
  destruct (sdrop n s); [reflexivity | cbn in Hl; discriminate].
Qed.

Lemma get_sdrop o i s : String.get i (sdrop o s) = String.get (o + i) s.
Proof.
  revert s; induction o as [|o IH]; intros s; cbn [Nat.add]; [now rewrite ?sdrop_0|].
  destruct s as [|c s]; cbn [sdrop].
  - rewrite get_none by (cbn; lia). symmetry; apply get_none; cbn; lia.
  - rewrite IH. reflexivity.
Qed.

Lemma sdrop_get_some o s c : String.get o s = Some c -> sdrop o s = String c (sdrop (S o) s).
Proof.
  revert s; induction o as [|o IH]; intros s H; destruct s as [|c0 s]; cbn in *; try discriminate.
  - injection H as ->. now rewrite ?sdrop_0.
  - apply IH in H. rewrite H. destruct s; [now rewrite sdrop_empty in H|]. reflexivity.
Qed.

Lemma sdrop_get_none o s : String.get o s = None -> sdrop o s = "".
Proof.
  intros H. apply sdrop_all. destruct (le_lt_dec (String.length s) o) as [Hl|Hl]; [exact Hl|].
  destruct (get_some s o Hl) as [c Hc]; congruence.
Qed.

Lemma stake_length n s : n <= String.length s -> String.length (stake n s) = n.
Proof.
  revert s; induction n as [|n IH]; intros s H; cbn; [reflexivity|].
  destruct s as [|c s]; cbn in *; [lia|]. rewrite IH; lia.
Qed.

Lemma stake_length_le n s : String.length (stake n s) <= n.
Proof.
  revert s; induction n as [|n IH]; intros s; cbn; [lia|].
  destruct s as [|c s]; cbn; [lia|]. specialize (IH s); lia.
Qed.

Lemma substring_stake o n s : String.substring o n s = stake n (sdrop o s).
Proof.
  revert s; induction o as [|o IH]; intros s.
  - rewrite ?sdrop_0. revert s; induction n as [|n IHn]; intros s; destruct s; cbn; try reflexivity.
    now rewrite IHn.
  - destruct s as [|c s]; cbn; [destruct n; reflexivity | apply IH].
Qed.

Lemma stake_sdrop n s : stake n s ++ sdrop n s = s.
Proof.
  revert s; induction n as [|n IH]; intros s; cbn; [now rewrite ?sdrop_0|].
  destruct s as [|c s]; cbn; [reflexivity | now rewrite IH].
Qed.

Lemma stake_stake a b s : a <= b -> stake a (stake b s) = stake a s.
Proof.
  revert a s; induction b as [|b IH]; intros a s Hab.
  - replace a with 0 by lia. reflexivity.
  - destruct a as [|a]; [reflexivity|]. destruct s as [|c s]; cbn; [reflexivity|]. rewrite IH by lia. reflexivity.
Qed.

Lemma stake_all n s : String.length s <= n -> stake n s = s.
Proof.
  revert s; induction n as [|n IH]; intros s H; destruct s as [|c s]; cbn in *; try reflexivity; try lia.
  rewrite IH by lia. reflexivity.
Qed.

Lemma sapp_nil_r (s : string) : s ++ "" = s.
Proof. induction s as [|c s IH]; cbn; [reflexivity | now rewrite IH]. Qed.

Lemma sapp_assoc (a b c : string) : (a ++ b) ++ c = a ++ (b ++ c).
Proof. induction a as [|x a IH]; cbn; [reflexivity | now rewrite IH]. Qed.

Lemma sapp_length (a b : string) : String.length (a ++ b) = String.length a + String.length b.
Proof. induction a as [|x a IH]; cbn; [reflexivity | now rewrite IH]. Qed.

Lemma sdrop_app_exact (a b : string) : sdrop (String.length a) (a ++ b) = b.
Proof. induction a as [|x a IH]; cbn; [apply sdrop_0 | exact IH]. Qed.

Lemma sdrop_app_le n (a b : string) : n <= String.length a -> sdrop n (a ++ b) = sdrop n a ++ b.
Proof.
  revert a; induction n as [|n IH]; intros a H; [now rewrite !sdrop_0|].
  destruct a as [|x a]; cbn in *; [lia|]. apply IH; lia.
Qed.

Lemma sdrop_app_ge n (a b : string) : sdrop (String.length a + n) (a ++ b) = sdrop n b.
Proof. rewrite <- sdrop_sdrop, sdrop_app_exact. reflexivity. Qed.

Lemma stake_app_le n (a b : string) : n <= String.length a -> stake n (a ++ b) = stake n a.
Proof.
  revert a; induction n as [|n IH]; intros a H; [reflexivity|].
  destruct a as [|x a]; cbn in *; [lia|]. rewrite IH by lia; reflexivity.
Qed.

Lemma stake_app_exact (a b : string) : stake (String.length a) (a ++ b) = a.
Proof. induction a as [|x a IH]; cbn; [reflexivity | now rewrite IH]. Qed.

Lemma get_app_lt i (a b : string) : i < String.length a -> String.get i (a ++ b) = String.get i a.
Proof.
  revert i; induction a as [|x a IH]; intros i H; cbn in *; [lia|].
  destruct i; [reflexivity | apply IH; lia].
Qed.

Lemma span_le p s : span p s <= String.length s.
Proof. induction s as [|c s IH]; cbn; [lia|]. destruct (p c); lia. Qed.

Lemma str_body_le : forall n s, String.length s <= n -> str_body s <= String.length s.
Proof.
  induction n as [|n IH]; intros s Hn; destruct s as [|c s]; cbn in *; try lia.
  destruct (Ascii.eqb c backslash).
  - destruct s as [|d s]; cbn in *; [lia|]. specialize (IH s ltac:(lia)); lia.
  - destruct (Ascii.eqb c squote).
    + destruct s as [|d s]; cbn in *; [lia|]. destruct (Ascii.eqb d squote); [|lia]. specialize (IH s ltac:(lia)); lia.
    + specialize (IH s ltac:(lia)); lia.
Qed.
