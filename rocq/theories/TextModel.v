(** Python text operations used by the code, on lists of characters. *)
From Coq Require Import Ascii String Decimal.
From Verif Require Import Base.
Local Notation length := List.length.
Local Open Scope nat_scope.

Definition text := list ascii.
(** Literals: [T "abc"]. *)
Definition T (s : string) : text := list_ascii_of_string s.

Definition ceqb : ascii -> ascii -> bool := Ascii.eqb.
Fixpoint teqb (a b : text) : bool :=
  match a, b with
  | [], [] => true
  | c :: a', d :: b' => ceqb c d && teqb a' b'
  | _, _ => false
  end.

Definition digit (d : nat) : ascii := ascii_of_nat (48 + d).

(** str(n) for an int n >= 0 *)
Fixpoint chars (u : Decimal.uint) : text :=
  match u with
  | Nil => []
  | D0 u => digit 0 :: chars u | D1 u => digit 1 :: chars u | D2 u => digit 2 :: chars u | D3 u => digit 3 :: chars u
  | D4 u => digit 4 :: chars u | D5 u => digit 5 :: chars u | D6 u => digit 6 :: chars u | D7 u => digit 7 :: chars u
  | D8 u => digit 8 :: chars u | D9 u => digit 9 :: chars u
  end.
Definition dec (n : nat) : text := chars (Nat.to_uint n).

(** int(s): digits only. Simplification: Python also accepts surrounding blanks,
    a sign and underscores; here they raise ValueError like other text. *)
Definition is_digit (c : ascii) : bool := (48 <=? nat_of_ascii c) && (nat_of_ascii c <=? 57).
Definition digit_of (c : ascii) : nat := nat_of_ascii c - 48.
Definition number (t : text) : nat := fold_left (fun a c => 10 * a + digit_of c) t 0.
Definition int_of (t : text) : res nat :=
  match t with [] => Err EValue | _ => if forallb is_digit t then Ok (number t) else Err EValue end.

(** s.split(c) *)
Fixpoint split (c : ascii) (t : text) : list text :=
  match t with
  | [] => [[]]
  | d :: t' => if ceqb d c then [] :: split c t'
               else match split c t' with p :: ps => (d :: p) :: ps | [] => [[d]] end
  end.
(** s.split(c, 1): the part before the first [c] and, if there is one, the rest *)
Fixpoint split1 (c : ascii) (t : text) : text * option text :=
  match t with
  | [] => ([], None)
  | d :: t' => if ceqb d c then ([], Some t') else let (a, r) := split1 c t' in (d :: a, r)
  end.
(** c.join(l) *)
Fixpoint join (c : ascii) (l : list text) : text :=
  match l with
  | [] => []
  | [p] => p
  | p :: l' => p ++ c :: join c l'
  end.

(** s.rjust(w, c); zfill(w) is rjust with "0" for text without a sign *)
Definition rjust (w : nat) (c : ascii) (t : text) : text := repeat c (w - length t) ++ t.
Definition zfill (w : nat) (t : text) : text := rjust w (digit 0) t.

(** s.lstrip(chars) *)
Fixpoint lstrip (cs : list ascii) (t : text) : text :=
  match t with
  | [] => []
  | c :: t' => if existsb (ceqb c) cs then lstrip cs t' else t
  end.

(** a < b for str: lexicographic by code point (here: byte) *)
Fixpoint tleb (a b : text) : bool :=
  match a, b with
  | [], _ => true
  | _ :: _, [] => false
  | c :: a', d :: b' =>
      if nat_of_ascii c <? nat_of_ascii d then true
      else if nat_of_ascii d <? nat_of_ascii c then false
      else tleb a' b'
  end.

(** sorted(l): stable insertion sort *)
Fixpoint insert {A} (le : A -> A -> bool) (x : A) (l : list A) : list A :=
  match l with
  | [] => [x]
  | y :: l' => if le x y then x :: l else y :: insert le x l'
  end.
Fixpoint sort {A} (le : A -> A -> bool) (l : list A) : list A :=
  match l with [] => [] | x :: l' => insert le x (sort le l') end.

(** list(OrderedDict.fromkeys(l)), list(dict.fromkeys(l)) *)
Fixpoint nubs (seen l : list text) : list text :=
  match l with
  | [] => []
  | x :: l' => if existsb (teqb x) seen then nubs seen l' else x :: nubs (x :: seen) l'
  end.
Definition unique (l : list text) : list text := nubs [] l.

(** sub in s *)
Fixpoint prefixb (p t : text) : bool :=
  match p, t with
  | [], _ => true
  | c :: p', d :: t' => ceqb c d && prefixb p' t'
  | _, _ => false
  end.
Fixpoint contains (p t : text) : bool :=
  prefixb p t || match t with [] => false | _ :: t' => contains p t' end.
