(** GENERATED by tools/gen.py from [identify_tag] of /repo. *)

From Coq Require Import NArith List String Bool.
From Verif Require Import Base.
Import ListNotations.
Local Open Scope N_scope.

(* src/emv/tlv_parsing/process_emv_tag.rs:32-154: the arms of the [match], in order. *)
Definition tag_table : list (list N * string) := [
  ([66], "Issuer Identification Number (IIN)"%string);
  ([79], "Application Dedicated File (ADF) Name"%string);
  ([80], "Application Label"%string);
  ([87], "Track 2 Equivalent Data"%string);
  ([90], "Application Primary Account Number (PAN)"%string);
  ([95; 32], "Cardholder Name"%string);
  ([95; 36], "Application Expiration Date"%string);
  ([95; 37], "Application Effective Date"%string);
  ([95; 40], "Issuer Country Code"%string);
  ([95; 42], "Transaction Currency Code"%string);
  ([95; 45], "Language Preference"%string);
  ([95; 48], "Service Code"%string);
  ([95; 52], "Application Primary Account Number (PAN) Sequence Number"%string);
  ([95; 54], "Transaction Currency Exponent"%string);
  ([95; 80], "Issuer URL"%string);
  ([95; 83], "International Bank Account Number (IBAN)"%string);
  ([95; 84], "Bank Identifier Code (BIC)"%string);
  ([95; 85], "Issuer Country Code (alpha2 format)"%string);
  ([95; 86], "Issuer Country Code (alpha3 format)"%string);
  ([95; 87], "Account Type"%string);
  ([97], "Application Template"%string);
  ([111], "File Control Information (FCI) Template"%string);
  ([112], "READ RECORD Response Message Template"%string);
  ([113], "Issuer Script Template 1"%string);
  ([114], "Issuer Script Template 2"%string);
  ([115], "Directory Discretionary Template"%string);
  ([119], "Response Message Template Format 2"%string);
  ([128], "Response Message Template Format 1"%string);
  ([129], "Amount, Authorised (Binary)"%string);
  ([130], "Application Interchange Profile"%string);
  ([131], "Command Template"%string);
  ([132], "Dedicated File (DF) Name"%string);
  ([134], "Issuer Script Command"%string);
  ([135], "Application Priority Indicator"%string);
  ([136], "Short File Identifier (SFI)"%string);
  ([137], "Authorisation Code"%string);
  ([138], "Authorisation Response Code"%string);
  ([140], "Card Risk Management Data Object List 1 (CDOL1)"%string);
  ([141], "Card Risk Management Data Object List 2 (CDOL2)"%string);
  ([142], "CVM List"%string);
  ([143], "Certification Authority Public Key Index (ICC)"%string);
  ([144], "Issuer Public Key Certificate"%string);
  ([145], "Issuer Authentication Data"%string);
  ([146], "Issuer Public Key Remainder"%string);
  ([147], "Signed Static Application Data"%string);
  ([148], "Application File Locator (AFL)"%string);
  ([149], "Terminal Verification Results (TVR)"%string);
  ([151], "Transaction Certificate Data Object List (TDOL)"%string);
  ([152], "Transaction Certificate (TC) Hash Value"%string);
  ([153], "Transaction PIN Data"%string);
  ([154], "Transaction Date"%string);
  ([155], "Transaction Status Information (TSI)"%string);
  ([156], "Transaction Type"%string);
  ([157], "Directory Definition File (DDF) Name"%string);
  ([159; 1], "Acquirer Identifier"%string);
  ([159; 2], "Amount, Authorised (Numeric)"%string);
  ([159; 3], "Amount, Other (Numeric)"%string);
  ([159; 4], "Amount, Other (Binary)"%string);
  ([159; 5], "Application Discretionary Data"%string);
  ([159; 6], "Application Identifier (AID)"%string);
  ([159; 7], "Application Usage Control"%string);
  ([159; 8], "Application Version Number (ICC)"%string);
  ([159; 9], "Application Version Number (Terminal)"%string);
  ([159; 11], "Cardholder Name Extended"%string);
  ([159; 13], "Issuer Action Code - Default"%string);
  ([159; 14], "Issuer Action Code - Denial"%string);
  ([159; 15], "Issuer Action Code - Online"%string);
  ([159; 16], "Issuer Application Data (CCD-Compliant)"%string);
  ([159; 17], "Issuer Code Table Index"%string);
  ([159; 18], "Application Preferred Name"%string);
  ([159; 19], "Last Online Application Transaction Counter (ATC) Register"%string);
  ([159; 20], "Lower Consecutive Offline Limit"%string);
  ([159; 21], "Merchant Category Code"%string);
  ([159; 22], "Merchant Identifier"%string);
  ([159; 23], "PIN Try Counter"%string);
  ([159; 24], "Issuer Script Identifier"%string);
  ([159; 26], "Terminal Country Code"%string);
  ([159; 27], "Terminal Floor Limit"%string);
  ([159; 28], "Terminal Identification"%string);
  ([159; 29], "Terminal Risk Management Data"%string);
  ([159; 30], "Interface Device (IFD/Terminal) Serial Number"%string);
  ([159; 31], "Track 1 Discretionary Data"%string);
  ([159; 32], "Track 2 Discretionary Data"%string);
  ([159; 33], "Transaction Time"%string);
  ([159; 34], "Certification Authority Public Key Index (Terminal)"%string);
  ([159; 35], "Upper Consecutive Offline Limit"%string);
  ([159; 38], "Application Cryptogram"%string);
  ([159; 39], "Cryptogram Information Data (CID)"%string);
  ([159; 45], "ICC PIN Encipherment Public Key Certificate"%string);
  ([159; 46], "ICC PIN Encipherment Public Key Exponent"%string);
  ([159; 47], "ICC PIN Encipherment Public Key Remainder"%string);
  ([159; 50], "Issuer Public Key Exponent"%string);
  ([159; 51], "Terminal Capabilities"%string);
  ([159; 52], "CVM Results"%string);
  ([159; 53], "Terminal Type"%string);
  ([159; 54], "Application Transaction Counter (ATC)"%string);
  ([159; 55], "Unpredictable Number"%string);
  ([159; 56], "Processing Options Data Object List (PDOL)"%string);
  ([159; 57], "POS Entry Mode"%string);
  ([159; 58], "Amount, Reference Currency (Binary)"%string);
  ([159; 59], "Application Reference Currency"%string);
  ([159; 60], "Transaction Reference Currency Code"%string);
  ([159; 61], "Transaction Reference Currency Exponent"%string);
  ([159; 64], "Additional Terminal Capabilities"%string);
  ([159; 65], "Transaction Sequence Counter"%string);
  ([159; 66], "Application Currency Code"%string);
  ([159; 67], "Application Reference Currency Exponent"%string);
  ([159; 68], "Application Currency Exponent"%string);
  ([159; 69], "Data Authentication Code"%string);
  ([159; 70], "ICC Public Key Certificate"%string);
  ([159; 71], "ICC Public Key Exponent"%string);
  ([159; 72], "ICC Public Key Remainder"%string);
  ([159; 73], "Dynamic Data Authentication Data Object List (DDOL)"%string);
  ([159; 74], "Static Data Authentication Tag List"%string);
  ([159; 75], "Signed Dynamic Application Data"%string);
  ([159; 76], "ICC Dynamic Number"%string);
  ([159; 77], "Log Entry"%string);
  ([159; 78], "Merchant Name and Location"%string);
  ([159; 79], "Log Format"%string);
  ([165], "File Control Information (FCI) Proprietary Template"%string);
  ([191; 12], "File Control Information (FCI) Issuer Discretionary Data"%string)
].

(* src/emv/tlv_parsing/process_emv_tag.rs:31-156: the [match] on the tag bytes. *)
Fixpoint lookup_tag (t : list N) (tbl : list (list N * string)) : option string :=
  match tbl with
  | [] => None
  | (k, n) :: rest => if leqb t k then Some n else lookup_tag t rest
  end.

(* src/emv/tlv_parsing/process_emv_tag.rs:31-156 *)
Definition identify_tag (t : list N) : option str := option_map lit (lookup_tag t tag_table).
