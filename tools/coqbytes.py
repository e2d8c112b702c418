"""Coq text of byte strings and floats, for running the model on files of /repo/testdata."""
import struct

def hexbytes(name, data, chunk=2000):
    parts = [data[i:i + chunk].hex() for i in range(0, len(data), chunk)]
    return ("Definition %s : bytes := List.concat (map unhex [%s]%%string).\n"
            % (name, ";\n".join('"%s"' % p for p in parts)))

PRELUDE = '''From Coq Require Import ZArith List Bool String Ascii.
From Coq Require Import Floats.SpecFloat.
From Verif Require Import Go GoFloat GoText.
Definition hexd (c : ascii) : Z := let n := Z.of_N (N_of_ascii c) in if n <? 58 then n - 48 else n - 87.
Fixpoint unhex (s : string) : bytes :=
  match s with
  | String a (String b s') => byte_of_Z (16 * hexd a + hexd b) :: unhex s'
  | _ => []
  end.
'''

def flt(x):
    bits = struct.unpack('<Q', struct.pack('<d', x))[0]
    return "(f64_of_bits %d)" % bits
