(** Model of hexdump, lambdalib/software/utils.py:3-18: the characters written to
    sys.stdout. *)
From Coq Require Export ZArith String Ascii List Bool Lia.
Export ListNotations.
Open Scope Z_scope.
Definition text := list ascii.
Definition lit (s : string) : text := list_ascii_of_string s.
Definition newline : ascii := ascii_of_nat 10.

(** Lower case hexadecimal digits of a number, most significant first (format codes x
    and hex()). *)
Definition digit (d : Z) : ascii := ascii_of_nat (Z.to_nat (if d <? 10 then 48 + d else 87 + d)).
Fixpoint hex_digits (fuel : nat) (n : Z) (acc : text) : text :=
  match fuel with
  | O => acc
  | S f => if n <? 16 then digit n :: acc else hex_digits f (n / 16) (digit (n mod 16) :: acc)
  end.
Definition fmt_x (n : Z) : text := hex_digits (S (Z.to_nat n)) n [].
Definition py_hex (n : Z) : text := lit "0x" ++ fmt_x n.                       (* hex(n), n >= 0 *)
Definition fmt_02x (b : Z) : text := let t := fmt_x b in                       (* f"{b:02x}" *)
  if Nat.ltb (length t) 2 then digit 0 :: t else t.

Definition hd_header : text :=                                                 (* 6-9 *)
  lit "       " ++ flat_map (fun i => skipn 2 (py_hex i) ++ lit "  ") [0;1;2;3;4;5;6;7;8;9;10;11;12;13;14;15].
Fixpoint hd_loop (i : Z) (data : list Z) : text :=                             (* 12-16 *)
  match data with
  | [] => []
  | b :: r => fmt_02x b ++ lit " " ++
              (if i mod 16 =? 15 then newline :: py_hex (i + 1) ++ lit ": " else []) ++
              hd_loop (i + 1) r
  end.
Definition hexdump (data : list Z) : text :=
  hd_header ++ newline :: lit "0x00: " ++ hd_loop 0 data ++ [newline].         (* 10, 18 *)
