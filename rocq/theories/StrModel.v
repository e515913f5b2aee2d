(** C strings: the helper.c functions on memory, and the libc functions the
    parsers call.

    Memory-level functions work on a buffer (list of bytes) and indices; a load or
    store outside the buffer is the distinct outcome [Er EUB].  The value-level
    functions below them work on the string a NUL-terminated buffer holds (a list
    of non-zero bytes). *)
From Coq Require Import NArith Ascii String List Bool Arith.
From Verif Require Import Bytes GenModel.
Import ListNotations.
Local Open Scope N_scope.
Local Open Scope res_scope.

Definition cstr := list N.

Fixpoint lit (s : string) : cstr :=
  match s with EmptyString => [] | String c r => N_of_ascii c :: lit r end.

(** ** <ctype.h>, <string.h> (C locale). *)
Definition isspace (c : N) : bool := (c =? 32) || ((9 <=? c) && (c <=? 13)).
Definition isdigit (c : N) : bool := (48 <=? c) && (c <=? 57).
Definition isupper (c : N) : bool := (65 <=? c) && (c <=? 90).
Definition islower (c : N) : bool := (97 <=? c) && (c <=? 122).
Definition isalpha (c : N) : bool := isupper c || islower c.
Definition tolower (c : N) : N := if isupper c then c + 32 else c.

(** include/bpfilter/helper.h:374-380 bf_streq and 404-410 bf_streq_i (strcmp and
    strcasecmp on two non-NULL strings). *)
Definition streq (a b : cstr) : bool := bytes_eqb a b.
Definition streq_i (a b : cstr) : bool := bytes_eqb (map tolower a) (map tolower b).

(** strchr(s, c): the text before the first [c] and the text after it. *)
Fixpoint split_at (c : N) (s : cstr) : option (cstr * cstr) :=
  match s with
  | [] => None
  | x :: r => if x =? c then Some ([], r)
              else match split_at c r with
                   | Some (a, b) => Some (x :: a, b)
                   | None => None
                   end
  end.

Fixpoint skip_char (c : N) (s : cstr) : cstr :=
  match s with
  | x :: r => if x =? c then skip_char c r else s
  | [] => []
  end.

(** strtok_r(s, "c", &save) with a one-character delimiter: skip leading
    delimiters, then the token runs to the next delimiter; [save] is what follows
    that delimiter, or the empty string. *)
Definition strtok (c : N) (s : cstr) : option (cstr * cstr) :=
  match skip_char c s with
  | [] => None
  | t => match split_at c t with Some p => Some p | None => Some (t, []) end
  end.

(** All the tokens: while ((token = strtok_r(tmp, ..., &save))) with tmp = NULL
    after the first one.  The fuel is the length of the string, which every token
    shortens. *)
Fixpoint tokens (fuel : nat) (c : N) (s : cstr) : list cstr :=
  match fuel with
  | O => []
  | S f => match strtok c s with
           | None => []
           | Some (t, rest) => t :: tokens f c rest
           end
  end.

(** ** strtoul / strtoll (ISO C 7.22.1.4, 64-bit long).  Result: value, text at
    *endptr, and whether errno is set to ERANGE. *)
Definition digit_val (c : N) : option N :=
  if isdigit c then Some (c - 48)
  else if islower c then Some (c - 87)
  else if isupper c then Some (c - 55)
  else None.

Definition digit_in (base c : N) : option N :=
  match digit_val c with
  | Some d => if d <? base then Some d else None
  | None => None
  end.

Fixpoint skip_space (s : cstr) : cstr :=
  match s with
  | c :: r => if isspace c then skip_space r else s
  | [] => []
  end.

Definition sign_of (s : cstr) : bool * cstr :=
  match s with
  | c :: r => if c =? 45 then (true, r) else if c =? 43 then (false, r) else (false, s)
  | [] => (false, s)
  end.

Fixpoint digits (base : N) (acc : N) (s : cstr) : N * cstr :=
  match s with
  | c :: r => match digit_in base c with
              | Some d => digits base (acc * base + d) r
              | None => (acc, s)
              end
  | [] => (acc, [])
  end.

Definition starts_digit (base : N) (s : cstr) : bool :=
  match s with
  | c :: _ => match digit_in base c with Some _ => true | None => false end
  | [] => false
  end.

(** A "0x" prefix is skipped in base 16 (and selects it in base 0) only when a
    hexadecimal digit follows. *)
Definition hex_prefix (s : cstr) : option cstr :=
  match s with
  | 48 :: x :: r =>
      if ((x =? 120) || (x =? 88)) && starts_digit 16 r then Some r else None
  | _ => None
  end.

Definition base_of (base : N) (s : cstr) : N * cstr :=
  if base =? 10 then (10, s)
  else match hex_prefix s with
       | Some r => (16, r)
       | None => if base =? 16 then (16, s)
                 else match s with 48 :: _ => (8, s) | _ => (10, s) end
       end.

(** Magnitude, sign, endptr; [None] when no conversion could be performed. *)
Definition scan (base : N) (s : cstr) : option (bool * N * cstr) :=
  let '(neg, s1) := sign_of (skip_space s) in
  let '(b, s2) := base_of base s1 in
  if starts_digit b s2
  then let '(v, rest) := digits b 0 s2 in Some (neg, v, rest)
  else None.

Definition strtoul (base : N) (s : cstr) : N * cstr * bool :=
  match scan base s with
  | None => (0, s, false)
  | Some (neg, v, rest) =>
      if two64 <=? v then (two64 - 1, rest, true)
      else if neg then ((two64 - v) mod two64, rest, false)
      else (v, rest, false)
  end.

(** strtoll: the magnitude saturates at LLONG_MAX / LLONG_MIN. *)
Definition strtoll (base : N) (s : cstr) : bool * N * cstr :=
  match scan base s with
  | None => (false, 0, s)
  | Some (neg, v, rest) =>
      let two63 := two64 / 2 in
      if neg then (true, N.min v two63, rest) else (false, N.min v (two63 - 1), rest)
  end.

(** ** helper.c on memory. *)
Definition mem := list N.

Definition ld (m : mem) (i : nat) : res N :=
  match nth_error m i with Some v => Ok v | None => Er EUB end.

Definition st (m : mem) (i : nat) (v : N) : res mem :=
  if (i <? length m)%nat then Ok (firstn i m ++ v :: skipn (S i) m) else Er EUB.

(** strlen, by reading byte after byte; reading past the buffer is UB. *)
Fixpoint strlen_from (fuel : nat) (m : mem) (i : nat) : res nat :=
  match fuel with
  | O => Er EUB
  | S f => c <- ld m i ;
           if c =? 0 then Ok O else n <- strlen_from f m (S i) ; Ok (S n)
  end.
Definition strlen (m : mem) (i : nat) : res nat := strlen_from (S (length m)) m i.

(** memcpy(dst, src, n), byte by byte (the buffers are distinct objects). *)
Fixpoint memcpy (dst : mem) (d : nat) (src : mem) (s n : nat) : res mem :=
  match n with
  | O => Ok dst
  | S k => c <- ld src s ; dst' <- st dst d c ; memcpy dst' (S d) src (S s) k
  end.

(** helper.c:39-55 bf_strncpy; the assert on [len] is [Er EABORT].  The returned
    error is given as a positive errno, 0 for success. *)
Definition strncpy (dst : mem) (len : nat) (src : mem) : res (mem * N) :=
  if (len =? 0)%nat then Er EABORT else
  src_len <- strlen src 0 ;
  let copy_len := Nat.min src_len (len - 1) in
  dst1 <- memcpy dst 0 src 0 copy_len ;
  dst2 <- st dst1 copy_len 0 ;
  Ok (dst2, if (copy_len =? src_len)%nat then 0 else E2BIG).

(** helper.c:167-174 bf_ltrim: the index of the first non-blank byte. *)
Fixpoint ltrim_from (fuel : nat) (m : mem) (i : nat) : res nat :=
  match fuel with
  | O => Er EUB
  | S f => c <- ld m i ; if isspace c then ltrim_from f m (S i) else Ok i
  end.
Definition ltrim (m : mem) (i : nat) : res nat := ltrim_from (S (length m)) m i.

(** helper.c:185-187: do { --back; } while (back > str && isspace( *back)). *)
Fixpoint rtrim_back (fuel : nat) (m : mem) (str back : nat) : res nat :=
  match fuel with
  | O => Er EUB
  | S f =>
      let back := (back - 1)%nat in
      if (str <? back)%nat
      then c <- ld m back ; if isspace c then rtrim_back f m str back else Ok back
      else Ok back
  end.

(** helper.c:176-195 bf_rtrim. *)
Definition rtrim (m : mem) (str : nat) : res mem :=
  n <- strlen m str ;
  if (n =? 0)%nat then Ok m else
  back <- rtrim_back (S (length m)) m str (str + n) ;
  c <- ld m back ;
  if (back =? str)%nat && isspace c then st m back 0 else st m (S back) 0.

(** helper.c:197-202 bf_trim: the buffer after the call and the returned pointer. *)
Definition trim (m : mem) (str : nat) : res (mem * nat) :=
  i <- ltrim m str ; m' <- rtrim m i ; Ok (m', i).

(** helper.c:204-223 bf_fnv1a. *)
Definition FNV_INIT : N := 14695981039346656037.   (* 0xcbf29ce484222325 *)
Definition FNV_PRIME : N := 1099511628211.         (* 0x100000001b3 *)
Definition fnv1a (data : list N) (h : N) : N :=
  fold_left (fun h b => (N.lxor h b * FNV_PRIME) mod two64) data h.
