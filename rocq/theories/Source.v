(** Model of parser/source.go. *)
From Coq Require Import String Ascii List Arith Bool.
From Verif Require Import Str.
Import ListNotations.
Local Open Scope string_scope.
Local Open Scope nat_scope.

Definition newline : ascii := ch 10.
Definition cr : ascii := ch 13.

(** source.go:12-16: the loop of [newLineStarts]; [s] is the text from index [i] on. *)
Fixpoint scan_starts (i : nat) (s : string) : list nat :=
  match s with
  | "" => []
  | String c r => if Ascii.eqb c newline then (i + 1) :: scan_starts (S i) r else scan_starts (S i) r
  end.

(** source.go:10-18 [newLineStarts]. *)
Definition newLineStarts (input : string) : list nat := 0 :: scan_starts 0 input.

(** [sort.Search(n, f)] of the Go library: binary search for the smallest index in
    [i, j) where [f] holds, [j] if there is none. [f] is [option]-valued because
    the callback indexes a slice. [fuel] bounds the halvings. *)
Fixpoint sort_search (fuel i j : nat) (f : nat -> option bool) : option nat :=
  match fuel with
  | O => None
  | S m =>
      if i <? j then
        let h := (i + j) / 2 in
        match f h with
        | None => None
        | Some false => sort_search m (h + 1) j f
        | Some true => sort_search m i h f
        end
      else Some i
  end.

(** source.go:21-30 [position]: line and column; [None] is an index out of range
    (a Go panic). Offsets are not negative here (see Items.v). *)
Definition position (s : list nat) (offset : nat) : option (nat * nat) :=
  match sort_search (S (List.length s)) 0 (List.length s)
          (fun i => match nth_error s i with Some x => Some (offset <? x) | None => None end) with
  | None => None
  | Some k =>
      let i := k - 1 in   (* k - 1 clamped at 0: source.go:25-28 *)
      match nth_error s i with
      | None => None
      | Some x => Some (i + 1, offset - x + 1)
      end
  end.

(** source.go:34-47 [lineText]; [None] is an index out of range (a Go panic). Line
    numbers below 1 are represented by 0. *)
Definition lineText (s : list nat) (input : string) (line : nat) : option string :=
  if (line <? 1) || (List.length s <? line) then Some ""
  else
    match nth_error s (line - 1) with
    | None => None
    | Some start =>
        match (if line <? List.length s then option_map (fun x => x - 1) (nth_error s line)
               else Some (String.length input)) with
        | None => None
        | Some e =>
            match (if start <? e then
                     match String.get (e - 1) input with
                     | None => None
                     | Some c => Some (if Ascii.eqb c cr then e - 1 else e)
                     end
                   else Some e) with
            | None => None
            | Some e =>
                if (start <=? e) && (e <=? String.length input)
                then Some (String.substring start (e - start) input) else None
            end
        end
    end.
