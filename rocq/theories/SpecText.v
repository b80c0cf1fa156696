(** * Vocabulary of the theorems about messages and Debug output

    How a reader gets numbers out of text. *)
From Coq Require Import List NArith ZArith Bool Arith Ascii String.
From Verif Require Import Base OffsetsModel FlattenModel BitmapModel LayoutModel FfiModel SpecTables.
Import ListNotations.

Definition spelled (s : string) : list N := List.map N_of_ascii (list_ascii_of_string s).

Definition is_digit (b : N) : bool := ((48 <=? b) && (b <=? 57))%N.
(** The number that the text starts with, and what follows it. *)
Fixpoint read_digits (v : N) (t : list N) : N * list N :=
  match t with
  | [] => (v, [])
  | b :: r => if is_digit b then read_digits (10 * v + (b - 48))%N r else (v, t)
  end.
Definition read_natural (t : list N) : option (N * list N) :=
  match t with
  | b :: _ => if is_digit b then Some (read_digits 0 t) else None
  | [] => None
  end.
Definition read_number (t : list N) : option (Z * list N) :=
  match t with
  | [] => None
  | b :: r =>
      if (b =? 45)%N then option_map (fun p => ((- Z.of_N (fst p))%Z, snd p)) (read_natural r)
      else option_map (fun p => (Z.of_N (fst p), snd p)) (read_natural t)
  end.

(** What follows the first [name] in the text, and the number there. *)
Fixpoint without (name t : list N) : option (list N) :=
  match name, t with
  | [], _ => Some t
  | a :: n, b :: r => if (a =? b)%N then without n r else None
  | _ :: _, [] => None
  end.
Fixpoint after (name t : list N) : option (list N) :=
  match without name t with
  | Some r => Some r
  | None => match t with [] => None | _ :: r => after name r end
  end.
Definition said (name : string) (t : list N) : option Z :=
  match after (spelled name) t with
  | Some r => option_map fst (read_number r)
  | None => None
  end.

(** The list of numbers that the text starts with, and the one behind a name. *)
Fixpoint read_rest (fuel : nat) (t : list N) : option (list Z) :=
  match fuel, without (spelled "]") t, without (spelled ", ") t with
  | _, Some _, _ => Some []
  | S fuel, None, Some r =>
      match read_number r with
      | Some (z, r) => option_map (cons z) (read_rest fuel r)
      | None => None
      end
  | _, _, _ => None
  end.
Definition read_list (t : list N) : option (list Z) :=
  match without (spelled "[]") t, without (spelled "[") t with
  | Some _, _ => Some []
  | None, Some r =>
      match read_number r with
      | Some (z, r) => option_map (cons z) (read_rest (List.length r) r)
      | None => None
      end
  | None, None => None
  end.
Definition listed (name : string) (t : list N) : option (list Z) :=
  match after (spelled name) t with Some r => read_list r | None => None end.

(** The integer that the bytes of a value stand for: two's complement if it is signed. *)
Definition signed (p : prim) : bool :=
  match p with S8 | S16 | S32 | S64 | S128 | Ssize => true | _ => false end.
Definition integer (p : prim) (x : N) : Z :=
  if signed p && N.testbit x (8 * value_bytes p - 1)
  then (Z.of_N x - 2 ^ Z.of_N (8 * value_bytes p))%Z else Z.of_N x.
Definition is_integer (p : prim) : bool :=
  match p with F32 | F64 | PArr _ _ => false | _ => true end.

(** The numbers of an error, and what they are called. *)
Definition offsets_numbers (e : offsets_error) : list (string * Z) :=
  match e with
  | OffEmpty => []
  | OffNonZeroFirst first => [("first offset (", Z.of_N first)]
  | OffNegative index | OffNonMonotonic index => [("index ", Z.of_nat index)]
  | OffOutOfBounds last data => [("last offset (", Z.of_N last); ("length of the data (", Z.of_nat data)]
  end%string.
Definition flatten_numbers (e : flatten_error) : list (string * Z) :=
  match e with
  | ZeroChunkSize => []
  | NotMultiple len n => [("child length (", Z.of_nat len); ("multiple of N (", Z.of_nat n)]
  end%string.
Definition bitmap_numbers (e : bitmap_error) : list (string * Z) :=
  match e with
  | OutOfBounds offset bits bytes =>
      [("offset (", Z.of_N offset); ("bits (", Z.of_N bits); ("capacity (", Z.of_N bytes)]
  end%string.
Definition import_numbers (e : import_error) : list (string * Z) :=
  match e with
  | UnexpectedFlags flags => [("flags (", flags)]
  | InvalidLength length => [("length (", length)]
  | NonZeroOffset offset => [("offset (", offset)]
  | UnexpectedNullCount n => [("null count (", n)]
  | NullCountMismatch declared actual =>
      [("null count (", declared); ("validity bitmap (", Z.of_nat actual)]
  | UnexpectedBufferCount n => [("buffer count (", n)]
  | UnexpectedChildCount a s => [(": array ", a); ("schema ", s)]
  | UnsupportedFixedSizeListSize size => [("width (", Z.of_nat size)]
  | FixedSizeListLengthMismatch length child size =>
      [("list length (", Z.of_N length); ("child length (", Z.of_nat child);
       ("width (", Z.of_nat size)]
  | MisalignedOffsetsBuffer n => [("alignment (", Z.of_N n)]
  | InvalidOffsets e => offsets_numbers e
  | MisalignedValuesBuffer n => [("alignment (", Z.of_N n)]
  | _ => []
  end%string.

(** Types without floating point numbers. *)
Fixpoint integral (p : prim) : bool :=
  match p with F32 | F64 => false | PArr q _ => integral q | _ => true end.
Fixpoint printable (t : ty) : bool :=
  match t with
  | TBool _ => true
  | TPrim p _ => integral p
  | TFsl _ t _ | TVsl _ t _ => printable t
  end.
