(** C68: the value of a decimal fraction in radiotap_rate. *)
From Verif Require Import Base PyNum Util PyLib OxmCodec OxmTables Oxm Spec SpecOxm SpecRate SpecText.
From Verif Require Import NumFacts UtilFacts GramLib RateExact.

(** N.FM, at most 13 digits behind the point: twice the exact value, rounded down, in one byte; refused if it does not fit.
    [value 10 (ds ++ fs) / 10 ^ length fs] is the exact value of N.F. *)
Theorem C68_megabits : forall ds fs b k, numeral 10 ds -> numeral 10 fs -> (length fs <= 13)%nat ->
  str2oxm ($"radiotap_rate=" ++ ds ++ $"." ++ fs ++ $"M") true = Ok (b, k) <->
  2 * value 10 (ds ++ fs) / 10 ^ Z.of_nat (length fs) < 256
  /\ b = wire (Tlv (Field $"radiotap_rate" Stratos 18 KRate) (be 1 (2 * value 10 (ds ++ fs) / 10 ^ Z.of_nat (length fs))) None)
  /\ k = length ($"radiotap_rate=" ++ ds ++ $"." ++ fs ++ $"M").
Proof. exact megabits_read. Qed.
Print Assumptions C68_megabits.
Example C68_megabits_case :
  str2oxm $"radiotap_rate=72.2M" true = Ok (wire (Tlv (Field $"radiotap_rate" Stratos 18 KRate) (be 1 144) None), 19%nat)
  /\ 2 * value 10 ($"72" ++ $"2") / 10 ^ Z.of_nat (length $"2") = 144
  /\ str2oxm $"radiotap_rate=127.9999999999999M" true = Ok (wire (Tlv (Field $"radiotap_rate" Stratos 18 KRate) (be 1 255) None), 32%nat)
  /\ str2oxm $"radiotap_rate=128.0M" true = Raise StructError.
Proof. vm_compute. auto. Qed.

(** N.FK, at most 10 digits behind the point: the exact value in units of 500, rounded down *)
Theorem C68_kilobits : forall ds fs b k, numeral 10 ds -> numeral 10 fs -> (length fs <= 10)%nat ->
  str2oxm ($"radiotap_rate=" ++ ds ++ $"." ++ fs ++ $"K") true = Ok (b, k) <->
  value 10 (ds ++ fs) / (500 * 10 ^ Z.of_nat (length fs)) < 256
  /\ b = wire (Tlv (Field $"radiotap_rate" Stratos 18 KRate) (be 1 (value 10 (ds ++ fs) / (500 * 10 ^ Z.of_nat (length fs)))) None)
  /\ k = length ($"radiotap_rate=" ++ ds ++ $"." ++ fs ++ $"K").
Proof. exact kilobits_read. Qed.
Print Assumptions C68_kilobits.
Example C68_kilobits_case :
  str2oxm $"radiotap_rate=5500.75K" true = Ok (wire (Tlv (Field $"radiotap_rate" Stratos 18 KRate) (be 1 11) None), 22%nat)
  /\ value 10 ($"5500" ++ $"75") / (500 * 10 ^ Z.of_nat (length $"75")) = 11
  /\ str2oxm $"radiotap_rate=499.9999999999K" true = Ok (wire (Tlv (Field $"radiotap_rate" Stratos 18 KRate) (be 1 0) None), 29%nat)
  /\ str2oxm $"radiotap_rate=128000.0K" true = Raise StructError.
Proof. vm_compute. auto. Qed.

(** more digits: the arithmetic rounds up, to a larger value or to one that is refused *)
Theorem C68_digits_refuted : exists ds fs, numeral 10 ds /\ numeral 10 fs /\ value 10 (ds ++ fs) / (500 * 10 ^ Z.of_nat (length fs)) = 0 /\
  str2oxm ($"radiotap_rate=" ++ ds ++ $"." ++ fs ++ $"K") true = Ok (wire (Tlv (Field $"radiotap_rate" Stratos 18 KRate) (be 1 1) None), 33%nat).
Proof.
  exists $"499", $"99999999999999". split; [|split; [|split; vm_compute; reflexivity]];
    (split; [discriminate|]); repeat (apply Forall_cons; [apply is_dec_iff; reflexivity|]); apply Forall_nil.
Qed.
Print Assumptions C68_digits_refuted.
Theorem C68_fits_refuted : exists ds fs, numeral 10 ds /\ numeral 10 fs /\ 2 * value 10 (ds ++ fs) / 10 ^ Z.of_nat (length fs) = 255 /\
  str2oxm ($"radiotap_rate=" ++ ds ++ $"." ++ fs ++ $"M") true = Raise StructError.
Proof.
  exists $"127", $"999999999999999". split; [|split; [|split; vm_compute; reflexivity]];
    (split; [discriminate|]); repeat (apply Forall_cons; [apply is_dec_iff; reflexivity|]); apply Forall_nil.
Qed.
Print Assumptions C68_fits_refuted.

(** [rounds] of SpecRate, by which C57 says what longer fractions are read as, is rounding to the nearest:
    |x - y| <= |x - m * 2^e| for all numbers m * 2^e with 53 bits, over the common denominator *)
Theorem C68_nearest : forall x y, 0 <= fst x -> 0 < snd x -> rounds x y -> forall m e, 0 <= m < 2 ^ 53 -> -1074 <= e ->
  Z.abs (fst x * snd y - fst y * snd x) * two_to (- e) <= Z.abs (fst x * two_to (- e) - m * two_to e * snd x) * snd y.
Proof. intros x y H1 H2 R m e Hm He. exact (rounds_near x y m e (conj H1 H2) R Hm He). Qed.
Print Assumptions C68_nearest.
Example C68_nearest_case : rounds (1, 10) (7205759403792794, 2 ^ 56) /\ rounds (9007199254740993, 1) (9007199254740992, 1).
Proof. split; [exists (-56)|exists 1]; vm_compute; intuition (try discriminate; reflexivity). Qed.
