(** Facts about Source.v: lines and columns. *)
From Coq Require Import String Ascii List Arith Bool Lia Sorted.
From Verif Require Import Str LexSpec StrFacts Source.
Import ListNotations.
Local Open Scope string_scope.
Local Open Scope nat_scope.

(** * Specification *)

(** Number of newlines in a text. *)
Fixpoint count_nl (s : string) : nat :=
  match s with "" => 0 | String c r => (if Ascii.eqb c newline then 1 else 0) + count_nl r end.

(** Number of bytes after the last newline of a text ([acc] bytes seen before). *)
Fixpoint col_from (acc : nat) (s : string) : nat :=
  match s with "" => acc | String c r => if Ascii.eqb c newline then col_from 0 r else col_from (S acc) r end.

(** The pieces between newlines. *)
Fixpoint lines (s : string) : list string :=
  match s with
  | "" => [""]
  | String c r =>
      if Ascii.eqb c newline then "" :: lines r
      else match lines r with l :: ls => String c l :: ls | [] => [] end
  end.

(** A text without a carriage return at its end. *)
Fixpoint strip_cr (s : string) : string :=
  match s with
  | "" => ""
  | String c "" => if Ascii.eqb c cr then "" else s
  | String c r => String c (strip_cr r)
  end.

(** * Facts *)

#[local] Arguments newline : simpl never.
#[local] Arguments Ascii.eqb : simpl never.

Lemma scan_starts_gt s : forall i x, In x (scan_starts i s) -> i < x.
Proof.
  induction s as [|c s IH]; intros i x H; cbn [scan_starts In] in H; [destruct H|].
  destruct (Ascii.eqb c newline); [cbn [In] in H; destruct H as [<-|H]; [lia|]|]; apply IH in H; lia.
Qed.

Lemma scan_starts_le s : forall i x, In x (scan_starts i s) -> x <= i + String.length s.
Proof.
  induction s as [|c s IH]; intros i x H; cbn [scan_starts In String.length] in H |- *; [destruct H|].
  destruct (Ascii.eqb c newline); [cbn [In] in H; destruct H as [<-|H]; [lia|]|]; apply IH in H; lia.
Qed.

Lemma starts_split s : forall i st d, st <= i ->
  exists pre x post, st :: scan_starts i s = (pre ++ x :: post)%list /\
    List.length pre = count_nl (stake d s) /\
    x + col_from (i - st) (stake d s) = i + String.length (stake d s) /\
    (forall y, In y pre -> y <= i + d) /\ x <= i + d /\ (forall y, In y post -> i + d < y).
Proof.
  induction s as [|c s IH]; intros i st d Hst.
  - exists [], st, []. destruct d; cbn; repeat split; try lia; intros ? [].
  - destruct d as [|d].
    + exists [], st, (scan_starts i (String c s)). cbn [app stake col_from count_nl List.length String.length].
      repeat split; try lia; [intros ? [] |]. intros y Hy. apply scan_starts_gt in Hy. lia.
    + cbn [scan_starts stake col_from count_nl String.length]. destruct (Ascii.eqb c newline).
      * destruct (IH (S i) (i + 1) d ltac:(lia)) as (pre & x & post & H1 & H2 & H3 & H4 & H5 & H6).
        exists (st :: pre), x, post. rewrite H1. cbn. replace (S i - (i + 1)) with 0 in H3 by lia.
        repeat split; try lia; intros y Hy; [destruct Hy as [<-|Hy]; [lia|]; apply H4 in Hy; lia | apply H6 in Hy; lia].
      * destruct (IH (S i) st d ltac:(lia)) as (pre & x & post & H1 & H2 & H3 & H4 & H5 & H6).
        exists pre, x, post. rewrite H1. replace (S i - st) with (S (i - st)) in H3 by lia.
        repeat split; try lia; intros y Hy; [apply H4 in Hy; lia | apply H6 in Hy; lia].
Qed.

Lemma sort_search_ok f k n : (forall h, h < n -> f h = Some (k <=? h)) -> k <= n ->
  forall fuel i j, i <= k -> k <= j -> j <= n -> j - i < fuel -> sort_search fuel i j f = Some k.
Proof.
  intros Hf Hk. induction fuel as [|m IH]; intros i j Hi Hj Hn Hm; [lia|]. cbn [sort_search].
  destruct (Nat.ltb_spec i j) as [Hlt|Hge]; [|f_equal; lia].
  cbv zeta. set (h := (i + j) / 2).
  assert (Hh : i <= h < j).
  { unfold h. split; [apply Nat.div_le_lower_bound; lia | apply Nat.div_lt_upper_bound; lia]. }
  rewrite Hf by lia. destruct (Nat.leb_spec k h).
  - apply IH; lia.
  - apply IH; lia.
Qed.

Lemma position_ok inp off :
  position (newLineStarts inp) off =
  let p := stake off inp in
  Some (S (count_nl p), S (col_from 0 p + (off - String.length p))).
Proof.
  unfold position, newLineStarts.
  destruct (starts_split inp 0 0 off (le_n _)) as (pre & x & post & H1 & H2 & H3 & H4 & H5 & H6).
  rewrite H1. cbn [Nat.add] in *. rewrite Nat.sub_0_r in H3. cbn zeta.
  rewrite (sort_search_ok _ (S (List.length pre)) (List.length (pre ++ x :: post))).
  - replace (S (List.length pre) - 1) with (List.length pre) by lia.
    rewrite nth_error_app2, Nat.sub_diag by lia. cbn [nth_error].
    rewrite H2. f_equal. f_equal; [lia|].
    pose proof (stake_length_le off inp). lia.
  - intros h Hh. destruct (Nat.lt_ge_cases h (List.length pre)) as [Hlt|Hge].
    + rewrite nth_error_app1 by exact Hlt. destruct (nth_error pre h) as [y|] eqn:E.
      * apply nth_error_In in E. apply H4 in E. f_equal.
        destruct (Nat.ltb_spec off y); [lia|]. destruct (Nat.leb_spec (S (List.length pre)) h); [lia | reflexivity].
      * apply nth_error_None in E. lia.
    + rewrite nth_error_app2 by exact Hge. destruct (h - List.length pre) as [|q] eqn:Eq.
      * cbn [nth_error]. f_equal. destruct (Nat.ltb_spec off x); [lia|].
        destruct (Nat.leb_spec (S (List.length pre)) h); [lia | reflexivity].
      * cbn [nth_error]. destruct (nth_error post q) as [y|] eqn:E.
        -- apply nth_error_In in E. apply H6 in E. f_equal.
           destruct (Nat.ltb_spec off y); [|lia]. destruct (Nat.leb_spec (S (List.length pre)) h); [reflexivity | lia].
        -- apply nth_error_None in E. rewrite app_length in Hh. cbn in Hh. lia.
  - rewrite app_length. cbn. lia.
  - lia.
  - rewrite app_length. cbn. lia.
  - lia.
  - lia.
Qed.

Lemma lines_ne s : lines s <> [].
Proof. induction s as [|c s IH]; cbn; [discriminate|]. destruct (Ascii.eqb c newline); [discriminate|]. destruct (lines s); [congruence | discriminate]. Qed.

Lemma lines_length s : forall i, List.length (lines s) = S (List.length (scan_starts i s)).
Proof.
  induction s as [|c s IH]; intros i; cbn; [reflexivity|].
  destruct (Ascii.eqb c newline); cbn; [now rewrite (IH (S i))|].
  pose proof (IH (S i)) as H. destruct (lines s); cbn in *; lia.
Qed.

(** Where line [k] ends in a list of starts. *)
Definition line_end (l : list nat) (total k : nat) : nat :=
  match nth_error l (S k) with Some x => x - 1 | None => total end.

Lemma lines_nth s : forall i k a, nth_error (i :: scan_starts i s) k = Some a ->
  i <= a /\ a <= line_end (i :: scan_starts i s) (i + String.length s) k <= i + String.length s /\
  nth_error (lines s) k =
    Some (stake (line_end (i :: scan_starts i s) (i + String.length s) k - a) (sdrop (a - i) s)).
Proof.
  induction s as [|c s IH]; intros i k a H.
  - destruct k as [|k]; cbn in H; [injection H as <-|destruct k; discriminate].
    unfold line_end. cbn. split; [lia|]. split; [lia|]. now rewrite sdrop_empty; destruct (i + 0 - i).
  - cbn [scan_starts lines] in *. destruct (Ascii.eqb c newline).
    + destruct k as [|k].
      * cbn in H. injection H as <-. unfold line_end. cbn [nth_error]. split; [lia|]. cbn [String.length].
        split; [lia|]. replace (i + 1 - 1 - i) with 0 by lia. reflexivity.
      * cbn [nth_error] in H. replace (i + 1) with (S i) in * by lia.
        destruct (IH (S i) k a H) as (H1 & H2 & H3).
        assert (He : line_end (i :: S i :: scan_starts (S i) s) (i + String.length (String c s)) (S k)
                     = line_end (S i :: scan_starts (S i) s) (S i + String.length s) k).
        { unfold line_end. cbn [nth_error]. cbn [String.length]. destruct (nth_error (scan_starts (S i) s) k); lia. }
        rewrite He. cbn [String.length nth_error]. split; [lia|]. split; [lia|]. rewrite H3.
        replace (a - i) with (S (a - S i)) by lia. reflexivity.
    + assert (He : forall k, line_end (i :: scan_starts (S i) s) (i + String.length (String c s)) k
                     = line_end (S i :: scan_starts (S i) s) (S i + String.length s) k).
      { intros q. unfold line_end. cbn [nth_error]. cbn [String.length]. destruct (nth_error (scan_starts (S i) s) q); lia. }
      rewrite He. destruct k as [|k].
      * cbn in H. injection H as <-. destruct (IH (S i) 0 (S i) eq_refl) as (H1 & H2 & H3).
        split; [lia|]. cbn [String.length]. split; [lia|]. rewrite Nat.sub_diag in H3 |- *.
        pose proof (lines_ne s) as Hne. destruct (lines s) as [|l ls]; [congruence|]. cbn [nth_error] in H3 |- *.
        injection H3 as ->. f_equal. rewrite ?sdrop_0.
        set (e := line_end (S i :: scan_starts (S i) s) (S i + String.length s) 0) in *.
        replace (e - i) with (S (e - S i)) by lia. reflexivity.
      * destruct (IH (S i) (S k) a H) as (H1 & H2 & H3). split; [lia|]. cbn [String.length]. split; [lia|].
        pose proof (lines_ne s) as Hne. destruct (lines s) as [|l ls]; [congruence|]. cbn [nth_error] in H3 |- *.
        rewrite H3. replace (a - i) with (S (a - S i)) by lia. reflexivity.
Qed.

Lemma strip_cr_last s : strip_cr s =
  match String.get (String.length s - 1) s with
  | Some c => if Ascii.eqb c cr then stake (String.length s - 1) s else s
  | None => s
  end.
Proof.
  induction s as [|c s IH]; [reflexivity|]. destruct s as [|d s].
  - cbn. destruct (Ascii.eqb c cr); reflexivity.
  - change (strip_cr (String c (String d s))) with (String c (strip_cr (String d s))).
    rewrite IH. cbn [String.length]. rewrite !Nat.sub_succ, !Nat.sub_0_r.
    change (String.get (S (String.length s)) (String c (String d s))) with (String.get (String.length s) (String d s)).
    destruct (String.get (String.length s) (String d s)) as [x|]; [|reflexivity].
    destruct (Ascii.eqb x cr); reflexivity.
Qed.

Lemma lineText_ok inp k :
  lineText (newLineStarts inp) inp k =
  Some (if (1 <=? k) && (k <=? List.length (lines inp)) then strip_cr (nth (k - 1) (lines inp) "") else "").
Proof.
  unfold lineText. assert (Hlen : List.length (newLineStarts inp) = List.length (lines inp)).
  { unfold newLineStarts. cbn. now rewrite (lines_length inp 0). }
  rewrite Hlen. destruct (Nat.ltb_spec k 1) as [H1|H1].
  { destruct k; [|lia]. reflexivity. }
  destruct (Nat.ltb_spec (List.length (lines inp)) k) as [H2|H2].
  { cbn [orb]. destruct (Nat.leb_spec k (List.length (lines inp))); [lia|]. now rewrite andb_false_r. }
  cbn [orb]. destruct (Nat.leb_spec 1 k); [|lia]. destruct (Nat.leb_spec k (List.length (lines inp))); [|lia]. cbn [andb].
  destruct (nth_error (newLineStarts inp) (k - 1)) as [st|] eqn:Es.
  2:{ apply nth_error_None in Es. lia. }
  destruct (lines_nth inp 0 (k - 1) st Es) as (_ & He & Hn). cbn [Nat.add] in He, Hn. rewrite Nat.sub_0_r in Hn.
  fold (newLineStarts inp) in He, Hn. set (e := line_end (newLineStarts inp) (String.length inp) (k - 1)) in *.
  assert (HE : (if k <? List.length (lines inp) then option_map (fun x => x - 1) (nth_error (newLineStarts inp) k)
                else Some (String.length inp)) = Some e).
  { unfold e, line_end. replace (S (k - 1)) with k by lia. destruct (Nat.ltb_spec k (List.length (lines inp))).
    - destruct (nth_error (newLineStarts inp) k) eqn:E2; [reflexivity|]. apply nth_error_None in E2. lia.
    - destruct (nth_error (newLineStarts inp) k) eqn:E2; [|reflexivity]. apply nth_error_Some_bound in E2 || (assert (nth_error (newLineStarts inp) k <> None) as Hx by congruence; apply nth_error_Some in Hx; lia). }
  rewrite HE. apply (nth_error_nth _ _ "") in Hn. rewrite Hn.
  set (l := stake (e - st) (sdrop st inp)).
  assert (Hl : String.length l = e - st) by (unfold l; apply stake_length; rewrite sdrop_length; lia).
  rewrite strip_cr_last, Hl.
  destruct (Nat.ltb_spec st e) as [Hlt|Hge].
  - assert (Hg : String.get (e - st - 1) l = String.get (e - 1) inp).
    { replace (e - 1) with (st + (e - st - 1)) by lia. rewrite <- get_sdrop.
      rewrite <- (stake_sdrop (e - st) (sdrop st inp)). fold l. rewrite get_app_lt by lia. reflexivity. }
    rewrite Hg. destruct (String.get (e - 1) inp) as [c|] eqn:Ec.
    2:{ destruct (get_some inp (e - 1)) as [c Hc]; [lia|congruence]. }
    destruct (Ascii.eqb c cr).
    + destruct (Nat.leb_spec st (e - 1)); [|lia]. destruct (Nat.leb_spec (e - 1) (String.length inp)); [|lia]. cbn [andb].
      rewrite substring_stake. f_equal. unfold l. rewrite stake_stake by lia. f_equal. lia.
    + destruct (Nat.leb_spec st e); [|lia]. destruct (Nat.leb_spec e (String.length inp)); [|lia]. cbn [andb].
      rewrite substring_stake. reflexivity.
  - assert (e - st = 0) by lia. replace (e - st) with 0 in * by lia. destruct l; [|discriminate].
    destruct (Nat.leb_spec st e); [|lia]. destruct (Nat.leb_spec e (String.length inp)); [|lia]. cbn [andb].
    rewrite substring_stake. reflexivity.
Qed.

Lemma count_nl_app a b : count_nl (a ++ b) = count_nl a + count_nl b.
Proof. induction a as [|c a IH]; [reflexivity|]. cbn [append count_nl]. rewrite IH. lia. Qed.

Lemma col_from_app a b : forall acc, col_from acc (a ++ b) = col_from (col_from acc a) b.
Proof. induction a as [|c a IH]; intros acc; [reflexivity|]. cbn [append col_from]. now destruct (Ascii.eqb c newline). Qed.

Lemma col_from_free b : count_nl b = 0 -> forall acc, col_from acc b = acc + String.length b.
Proof.
  induction b as [|c b IH]; intros H acc; cbn [col_from count_nl String.length] in *; [lia|].
  destruct (Ascii.eqb c newline); [discriminate|]. rewrite (IH H). lia.
Qed.

Lemma position_split (a b c : string) : (a = "" \/ exists a', a = a' ++ String newline "") -> count_nl b = 0 ->
  position (newLineStarts (a ++ b ++ c)) (String.length a + String.length b) = Some (1 + count_nl a, 1 + String.length b).
Proof.
  intros Ha Hb. rewrite position_ok. cbv zeta.
  assert (Hs : stake (String.length a + String.length b) (a ++ b ++ c) = a ++ b).
  { rewrite <- sapp_assoc, <- sapp_length. apply stake_app_exact. }
  rewrite Hs, count_nl_app, Hb, Nat.add_0_r, sapp_length, Nat.sub_diag, Nat.add_0_r, col_from_app, (col_from_free b Hb).
  replace (col_from 0 a) with 0; [reflexivity|]. destruct Ha as [->|(a' & ->)]; [reflexivity|].
  rewrite col_from_app. reflexivity.
Qed.

(** Every offset splits the input that way. *)
Lemma offset_split inp : forall off, off <= String.length inp -> exists a b c,
  inp = (a ++ b ++ c)%string /\ off = String.length a + String.length b /\ count_nl b = 0 /\  (a = "" \/ exists a', a = (a' ++ String newline "")%string).
Proof.
  induction inp as [|d s IH]; intros off H.
  - exists "", "", "". cbn in *. repeat split; try lia. now left.
  - destruct off as [|off].
    + exists "", "", (String d s). repeat split; try lia. now left.
    + cbn in H. destruct (IH off ltac:(lia)) as (a & b & c & -> & -> & Hb & Ha).
      destruct (Ascii.eqb_spec d newline) as [->|Hd].
      * exists (String newline a), b, c. repeat split; try assumption. right.
        destruct Ha as [->|(a' & ->)]; [exists ""; reflexivity | exists (String newline a'); reflexivity].
      * destruct Ha as [->|(a' & ->)].
        -- exists "", (String d b), c. cbn [count_nl]. destruct (Ascii.eqb_spec d newline); [congruence|]. repeat split; try assumption. now left.
        -- exists (String d (a' ++ String newline "")), b, c. repeat split; try assumption. right. now exists (String d a').
Qed.

(** [lines] cuts a text at its newlines. *)
Lemma lines_concat s : String.concat (String newline "") (lines s) = s.
Proof.
  induction s as [|c s IH]; [reflexivity|]. cbn [lines]. pose proof (lines_ne s) as Hn.
  destruct (Ascii.eqb_spec c newline) as [->|Hc].
  - rewrite <- IH at 2. destruct (lines s); [congruence | reflexivity].
  - rewrite <- IH at 2. destruct (lines s) as [|l [|l' ls]]; [congruence | reflexivity | reflexivity].
Qed.

Lemma lines_free s l : In l (lines s) -> count_nl l = 0.
Proof.
  revert l. induction s as [|c s IH]; intros l H; cbn [lines] in H; [destruct H as [<-|[]]; reflexivity|].
  destruct (Ascii.eqb c newline) eqn:E.
  - destruct H as [<-|H]; [reflexivity | now apply IH].
  - destruct (lines s) as [|x xs]; [destruct H|]. destruct H as [<-|H].
    + cbn [count_nl]. rewrite E. apply IH. now left.
    + apply IH. now right.
Qed.
