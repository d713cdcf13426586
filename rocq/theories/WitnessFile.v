(** A text, a reader of whole numbers, and loaders of the text. *)
From Verif Require Export SpecFile FileLoader SpecLoad.

Definition digit (c : ascii) : option Z :=
  let n := nat_of_ascii c in if ((48 <=? n) && (n <=? 57))%nat then Some (Z.of_nat (n - 48)) else None.
Fixpoint digits (acc : Z) (s : string) : option Z :=
  match s with
  | EmptyString => Some acc
  | String c s => match digit c with Some d => digits (10 * acc + d) s | None => None end
  end.
(** whole numbers, in thousandths *)
Definition whole (s : string) : option Z :=
  match s with
  | EmptyString => None
  | String "-" s => match s with EmptyString => None | _ => z ← digits 0 s; Some (- (1000 * z)) end
  | _ => z ← digits 0 s; Some (1000 * z)
  end.

(** one vehicle, one trip; tabs and doubled spaces between the numbers *)
Definition short_lines : list string :=
  ["1  2 480" +:+ String (ascii_of_nat 9) "6 90"; " 0 0 0 0 0 0 1440"; "1 1 0 10 1 0 1440"; "2 5 5 10 -1 300 360 "]%string.
Definition short_trip : dial_a_ride := DialARideFile 1 480000 6000 90000 (Point 0 0 0 0 0 0 1440000)
  [Point 1000 1000 0 10000 1000 0 1440000] [Point 2000 5000 5000 10000 (-1000) 300000 360000].
(** the file cannot be opened at first *)
Definition late_file (n : nat) : option string := match n with O => None | _ => Some (text_of short_lines) end.

Definition short_rides : list string := ["9 9 1 1 2 50"; "1 0 5 0 0 40"]%string.
