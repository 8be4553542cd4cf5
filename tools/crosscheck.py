"""crosscheck.py OUT.v [N] [SEED]: compare the models of Python's numbers, JSON, UTF-8, base64 and
int() with CPython on random inputs.  Writes a Coq file that prints the failing cases (none
expected).  Not part of the proofs: it tests the reading of CPython the proofs rest on.
   python3 tools/crosscheck.py /tmp/cross.v 2000 1 && coqc -Q rocq/theories Verif /tmp/cross.v"""
import sys, re, random, math, struct, json, base64, binascii
out = sys.argv[1]; N = int(sys.argv[2]) if len(sys.argv) > 2 else 500
R = random.Random(int(sys.argv[3]) if len(sys.argv) > 3 else 1)

def z(n): return f'({n})'
def flt(x):
    if x != x: return 'S754_nan'
    s = 'true' if math.copysign(1, x) < 0 else 'false'
    if math.isinf(x): return f'(S754_infinity {s})'
    if x == 0: return f'(S754_zero {s})'
    b = struct.unpack('>Q', struct.pack('>d', abs(x)))[0]
    e, m = b >> 52, b & (2**52 - 1)
    return f'(S754_finite {s} {m if e == 0 else m + 2**52} {z((e or 1) - 1075)})'
def num(x): return f'(NF {flt(x)})' if isinstance(x, float) else f'(NI {z(x)})'
def strz(bs): return '(sb [' + ';'.join(map(str, bs)) + '])'
def text(s): return strz(s.encode('utf-8', 'surrogatepass'))
def val(v):
    if v is None: return 'VNone'
    if v is True: return '(VBool true)'
    if v is False: return '(VBool false)'
    if isinstance(v, int): return f'(VInt {z(v)})'
    if isinstance(v, float): return f'(VFlt {flt(v)})'
    if isinstance(v, str): return f'(VStr {text(v)})'
    if isinstance(v, list): return '(VList [' + ';'.join(map(val, v)) + '])'
    return '(VDict [' + ';'.join(f'({"KI "+z(k) if isinstance(k,int) else "KS "+text(k)}, {val(x)})' for k, x in v.items()) + '])'
EXN = {ZeroDivisionError: 'EZeroDiv', OverflowError: 'EOverflow', json.JSONDecodeError: 'EJSONDecode',
       UnicodeDecodeError: 'EUnicodeDecode', binascii.Error: 'EBinascii', ValueError: 'EValue', TypeError: 'EType'}
def res(f, show):
    try: return f'(Ok {show(f())})'
    except Exception as e: return f'(Err {EXN[type(e)]})'

def rfloat():
    k = R.randrange(12)
    if k == 0: return R.choice([0.0, -0.0, math.inf, -math.inf, math.nan, 5e-324, 2.2250738585072014e-308, 1.7976931348623157e308, 0.1, 0.5, 1.0, -1.0])
    if k < 4: return R.randrange(-4096, 4096) / 256
    if k < 6: return float(R.randrange(-10**6, 10**6))
    if k < 8: return R.uniform(-1000, 1000)
    if k == 8: return R.choice([1, -1]) * 2.0 ** R.randrange(-1074, 1024)      # repr: uneven spacing
    if k == 9: return (2 ** 52 + R.getrandbits(52)) / 2 ** R.randrange(1, 12)      # repr: ties
    return struct.unpack('>d', struct.pack('>Q', R.getrandbits(64)))[0]
def rint():
    k = R.randrange(6)
    if k == 0: return R.choice([0, 1, -1, 2**53, 2**53 + 1, -2**63, 10**22, 10**23])
    if k < 3: return R.randrange(-20, 20)
    if k < 5: return R.randrange(-2**40, 2**40)
    return R.randrange(-1, 2) * R.getrandbits(R.randrange(1, 1100))
def rnum(): return rfloat() if R.random() < .6 else rint()
def rstr():
    n = R.choice([0, 1, 2, 5, 9])
    return ''.join(R.choice([chr(R.randrange(32, 127)), chr(R.randrange(0, 32)), '"', '\\', '/', chr(R.randrange(0x80, 0xd800)), chr(R.randrange(0xe000, 0x10ffff)), chr(R.randrange(0xd800, 0xe000)), '\x7f'][:R.choice([1, 4, 9])]) for _ in range(n))
def rval(d=3):
    k = R.randrange(9 if d else 6)
    if k == 0: return None
    if k == 1: return R.random() < .5
    if k == 2: return rint()
    if k == 3: return rfloat()
    if k < 6: return rstr()
    if k == 6: return [rval(d - 1) for _ in range(R.randrange(4))]
    return {R.choice([rstr, lambda: R.randrange(-5, 99)])(): rval(d - 1) for _ in range(R.randrange(4))}
def damage(s):
    s = list(s)
    for _ in range(R.choice([0, 1, 1, 2])):
        i = R.randrange(len(s) + 1); k = R.randrange(3)
        c = R.choice('{}[]",:0123456789.eE+- \n\ttrufalsnNIy\\x')
        if k == 0: s.insert(i, c)
        elif s and i < len(s):
            if k == 1: del s[i]
            else: s[i] = c
    return ''.join(s)

tests = []
def t(tag, cmp, got, exp): tests.append(f'("{tag}"%string, {cmp} ({got}) {exp})')
for i in range(N):
    a, b = rnum(), rnum()
    for f, g in (('nadd', lambda: a + b), ('nsub', lambda: a - b), ('nmul', lambda: a * b), ('ntruediv', lambda: a / b),
                 ('nfloordiv', lambda: a // b), ('nmod', lambda: a % b)):
        t(f'{f} {a!r} {b!r}', 'rnum', f'{f} {num(a)} {num(b)}', res(g, num))
    t(f'lt {a!r} {b!r}', 'Bool.eqb', f'nltb {num(a)} {num(b)}', 'true' if a < b else 'false')
    t(f'eq {a!r} {b!r}', 'Bool.eqb', f'neqb {num(a)} {num(b)}', 'true' if a == b else 'false')
    t(f'min {a!r} {b!r}', 'numb', f'nmin {num(a)} {num(b)}', num(min(a, b)))
    t(f'max {a!r} {b!r}', 'numb', f'nmax {num(a)} {num(b)}', num(max(a, b)))
    for f, g in (('nfloor', math.floor), ('nceil', math.ceil), ('nint', int)):
        t(f'{f} {a!r}', 'rz', f'{f} {num(a)}', res(lambda: g(a), z))
    v = rval(); s = json.dumps(v)
    t(f'dumps {i}', 'rstr', f'json_dumps {val(v)}', f'(Ok {text(s)})')
    if R.random() < .5: s = damage(s)
    else: s = damage(json.dumps(v, ensure_ascii=False, separators=R.choice([(',', ':'), (', ', ' : ')])))
    if re.search(r'[eE][-+]?\d{4}', s): s = ''      # 10^exponent is computed in the model
    t(f'loads {i}', 'rval', f'json_loads {text(s)}', res(lambda: json.loads(s), val))
    bs = bytes(R.randrange(256) for _ in range(R.randrange(12)))
    t(f'b64encode {i}', 'String.eqb', f'b64encode {strz(bs)}', strz(base64.b64encode(bs)))
    u = damage(base64.b64encode(bs).decode()) + R.choice(['', '', '=', '==', '\n'])
    if R.random() < .05: u += 'é'
    t(f'b64decode {u!r}'.replace('"', '').replace('\\', ''), 'rstr', f'b64decode {text(u)}', res(lambda: base64.b64decode(u), strz))
    raw = bs if R.random() < .4 else (rstr().encode('utf-8', 'surrogatepass') + bs[:R.randrange(2)])
    t(f'utf8 {raw!r}'.replace('"', '').replace('\\', ''), 'ocps', f'cps false {strz(raw)}',
      res(lambda: [ord(c) for c in raw.decode()], lambda l: '[' + ';'.join(map(str, l)) + ']').replace('(Ok', '(Some').replace('(Err EUnicodeDecode)', 'None'))
    q = R.choice([str(rint()), ' ' + str(R.randrange(99)) + R.choice(['', ' ', '\n', '\x1f', 'x']), damage(str(rint())), '1_000', '_1', '+5', '--5', '', '0x10', '1__0', '1_'])
    t(f'int {i} {q!r}'.replace('"', '').replace('\\', ''), 'rz', f'py_int (VStr {text(q)})', res(lambda: int(q), z))
with open(out, 'w') as f:
    f.write('''From Coq Require Import Floats.SpecFloat.
From Verif Require Import Py Num Util Text Json.
Open Scope Z_scope.
Definition sb (l : list Z) : string := fold_right (fun c s => String (zb c) s) "" l.
Definition numb (a b : num) := match a, b with NI x, NI y => x =? y | NF x, NF y => sf_eqb x y | _, _ => false end.
Fixpoint valb (a b : val) {struct a} : bool := match a, b with
  | VNone, VNone => true | VBool x, VBool y => Bool.eqb x y | VInt x, VInt y => x =? y | VFlt x, VFlt y => sf_eqb x y
  | VStr x, VStr y => String.eqb x y
  | VList l, VList m => (fix go l m := match l, m with [], [] => true | x :: l, y :: m => valb x y && go l m | _, _ => false end) l m
  | VDict l, VDict m => (fix go l m := match l, m with [], [] => true | (k, x) :: l, (k', y) :: m => key_eqb k k' && valb x y && go l m | _, _ => false end) l m
  | _, _ => false end.
Definition exnb (a b : exn) : bool := match a, b with EZeroDiv, EZeroDiv | EOverflow, EOverflow | EJSONDecode, EJSONDecode
  | EBinascii, EBinascii | EValue, EValue | EType, EType | EUnicodeDecode, EUnicodeDecode => true | _, _ => false end.
Definition rb {A} (e : A -> A -> bool) (a b : res A) := match a, b with Ok x, Ok y => e x y | Err x, Err y => exnb x y | _, _ => false end.
Definition rnum := rb numb. Definition rz := rb Z.eqb. Definition rstr := rb String.eqb. Definition rval := rb valb.
Definition ocps (a b : option (list Z)) := match a, b with None, None => true | Some x, Some y => if list_eq_dec Z.eq_dec x y then true else false | _, _ => false end.
''')
    for i in range(0, len(tests), 50):
        f.write('Eval vm_compute in (map fst (filter (fun t => negb (snd t)) [\n' + ';\n'.join(tests[i:i + 50]) + '])).\n')
