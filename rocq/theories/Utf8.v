(** UTF-8 decoding as done by Go (package unicode/utf8, for range over a string) and the functions of
    package strings that work on runes. *)
From Coq Require Import String Ascii List ZArith NArith Bool.
From Verif Require Import GoStr.
Import ListNotations.
Local Open Scope N_scope.

Definition within (lo hi : N) (c : ascii) : bool := (lo <=? N_of_ascii c) && (N_of_ascii c <=? hi).

(** utf8.RuneError *)
Definition rune_error : N := 65533.

(** utf8.DecodeRuneInString: the first rune and its width; an invalid sequence is one byte wide. *)
Definition decode (s : str) : N * nat :=
  match s with
  | [] => (rune_error, 0%nat)
  | a :: r =>
      let b0 := N_of_ascii a in
      let bad := (rune_error, 1%nat) in
      if b0 <? 128 then (b0, 1%nat)
      else if (194 <=? b0) && (b0 <=? 223) then
        match r with
        | b :: _ => if within 128 191 b then ((b0 - 192) * 64 + (N_of_ascii b - 128), 2%nat) else bad
        | [] => bad
        end
      else if (224 <=? b0) && (b0 <=? 239) then
        match r with
        | b :: c :: _ =>
            if within (if b0 =? 224 then 160 else 128) (if b0 =? 237 then 159 else 191) b && within 128 191 c
            then ((b0 - 224) * 4096 + (N_of_ascii b - 128) * 64 + (N_of_ascii c - 128), 3%nat) else bad
        | _ => bad
        end
      else if (240 <=? b0) && (b0 <=? 244) then
        match r with
        | b :: c :: d :: _ =>
            if within (if b0 =? 240 then 144 else 128) (if b0 =? 244 then 143 else 191) b
               && within 128 191 c && within 128 191 d
            then ((b0 - 240) * 262144 + (N_of_ascii b - 128) * 4096 + (N_of_ascii c - 128) * 64
                  + (N_of_ascii d - 128), 4%nat) else bad
        | _ => bad
        end
      else bad
  end.

(** A rune of a string with its bytes. *)
Definition chunk := (N * str)%type.

Fixpoint chunks_f (fuel : nat) (s : str) : list chunk :=
  match fuel, s with
  | S f, _ :: _ => let (r, w) := decode s in (r, firstn w s) :: chunks_f f (skipn w s)
  | _, _ => []
  end.
(** The runes of a string, in order (for range). *)
Definition chunks (s : str) : list chunk := chunks_f (List.length s) s.

Definition bytes (cs : list chunk) : str := concat (map snd cs).

(** utf8.RuneCountInString *)
Definition rune_count (s : str) : nat := List.length (chunks s).

(** unicode.IsSpace *)
Definition is_space_rune (r : N) : bool :=
  ((9 <=? r) && (r <=? 13)) || (r =? 32) || (r =? 133) || (r =? 160) || (r =? 5760)
  || ((8192 <=? r) && (r <=? 8202)) || (r =? 8232) || (r =? 8233) || (r =? 8239) || (r =? 8287) || (r =? 12288).

Definition sp_chunk (c : chunk) : bool := is_space_rune (fst c).

Fixpoint span_space (cs : list chunk) : list chunk * list chunk :=
  match cs with
  | [] => ([], [])
  | c :: r => if sp_chunk c then let (a, b) := span_space r in (c :: a, b) else ([], cs)
  end.

(** strings.TrimLeftFunc(s, unicode.IsSpace), and what it removes. *)
Definition trim_left_space (s : str) : str := bytes (snd (span_space (chunks s))).
Definition leading_space (s : str) : str := bytes (fst (span_space (chunks s))).

(** strings.TrimRightFunc(s, unicode.IsSpace).  Go decodes backwards; for the encodings of white space
    this finds the same runes as decoding forwards, because the first byte of such an encoding cannot
    be inside another sequence. *)
Definition trim_right_space (s : str) : str := bytes (rev (snd (span_space (rev (chunks s))))).

(** strings.TrimSpace(s) == "" *)
Definition is_blank (s : str) : bool := forallb sp_chunk (chunks s).

(** strings.Fields *)
Fixpoint fields_go (cs cur : list chunk) : list str :=
  match cs with
  | [] => match cur with [] => [] | _ => [bytes cur] end
  | c :: r =>
      if sp_chunk c then match cur with [] => fields_go r [] | _ => bytes cur :: fields_go r [] end
      else fields_go r (cur ++ [c])
  end.
Definition fields (s : str) : list str := fields_go (chunks s) [].
