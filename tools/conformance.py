"""Compare the Coq model with the expected results stored in /repo/tests/data.

Reads the first N rows of sample_data_sorted.csv, evaluates the model of every
indicator on them with vm_compute, and compares each cell with the CSV the
project's own tests compare with.  Not part of any proof.
Usage: python3 tools/conformance.py [N] [name filter]   (needs a built rocq/)
"""
import tempfile
import csv,re,subprocess,sys,glob,os
from fractions import Fraction
TMP=tempfile.mkdtemp()
THEORIES=os.path.join(os.path.dirname(os.path.abspath(__file__)),'..','rocq','theories')
N=int(sys.argv[1]) if len(sys.argv)>1 else 80
rows=list(csv.DictReader(open('/repo/tests/data/sample_data_sorted.csv')))[:N]
cases=[("accumulation_distribution_line","iADL"),("average_true_range","iATR"),("bollinger_bands","iBB 20 (F 2)"),("chaikin_money_flow","iCMF 5"),("chaikin_oscillator","iCO"),("chande_momentum_oscillator","iCMO 5"),("commodity_channel_index","iCCI 5"),("detrended_price_oscillator","iDPO 6"),("directional_movement_index","iDMI"),("double_exponential_moving_average","iDEMA 5"),("ease_of_movement","iEMV 14"),("envelopes","iENV 20 (D 1 10)"),("forecast_oscillator","iFOSC 14"),("ichimoku_cloud","iICH"),("intraday_momentum_index","iIMI 14"),("klinger_oscillator","iKO"),("linear_regression_indicator","iLRI 14"),("linear_regression_slope","iLRS 14"),("market_facilitation_index","iMFI"),("mass_index","iMI"),("median_price","iMP 20"),("momentum","iMOM 12"),("moving_average_convergence_divergence","iMACD"),("moving_average_exponential","iMA 20 MExponential"),("moving_average_simple","iMA 20 MSimple"),("moving_average_time_series","iMA 20 MTimeSeries"),("moving_average_triangular","iMA 20 MTriangular"),("moving_average_variable","iMA 20 MVariable"),("negative_volume_index","iNVI"),("on_balance_volume","iOBV"),("parabolic_sar","iPSAR"),("performance","iPRF PLong (D 5 100)"),("positive_volume_index","iPVI"),("price_and_volume_trend","iPVT"),("price_channel","iPCH 5"),("price_oscillator","iPOSC 30 10"),("price_rate_of_change","iPRC 25"),("projection_bands","iPB 14"),("projection_oscillator","iPROJ 14"),("qstick","iQS 8"),("range_indicator","iRI 5 3"),("relative_momentum_index","iRMI 8 4"),("relative_strength_index","iRSI 9"),("relative_volatility_index","iRVI 5"),("standard_deviation","iSD 20"),("stochastic_momentum_index","iSMI 5 3 3"),("stochastic_oscillator_fast","iSO 14 1 3 DSimple"),("stochastic_oscillator_slow","iSO 14 3 3 DSimple"),("swing_index","iSWI"),("time_series_forecast","iTSF 14"),("triple_exponential_moving_average","iTEMA 5"),("typical_price","iTP 200"),("ultimate_oscillator","iUO"),("vertical_horizontal_filter","iVHF 5"),("volatility_chaikins","iVCH 10 10"),("volume_oscillator","iVOSC 5 2"),("volume_rate_of_change","iVRC 5"),("weighted_close","iWC"),("wilders_smoothing","iWS 5"),("williams_accumulation_distribution","iWAD"),("williams_r","iWR 5")]
if len(sys.argv)>2: cases=[c for c in cases if sys.argv[2] in c[0]]
out=["From Coq Require Import ZArith QArith Qcanon List String.","From Verif Require Import Num Pandas Frame Ind.","Import ListNotations. Open Scope list_scope. Open Scope string_scope.",
"Definition sq (q:Qc) : Qc := Q2Qc (Qmake (Z.sqrt (Qnum q * 10^24 / Zpos (Qden q))) (10^12)).",
"Definition orc := mkOracle sq (fun n => repeat 1%Qc n).",
"Definition sh (x:num) : Z := match x with NaN => (-999999999999999999999)%Z | PInf => (888888888888888888888)%Z | NInf => (-888888888888888888888)%Z | Fin q => ((Qnum q * 10^10) / Zpos (Qden q))%Z end.",
"Definition data : frame := mkFrame [\"open\";\"high\";\"low\";\"close\";\"volume\"] ["]
def d(x):
    f=Fraction(x); return f"D ({f.numerator}) {f.denominator}"
out.append(";\n".join(f"({i}%Z,[{'; '.join(d(r[c]) for c in ['open','high','low','close','volume'])}])" for i,r in enumerate(rows))+"].")
for k,(n,i) in enumerate(cases):
    out.append(f"Definition r{k} := Eval vm_compute in match calc orc ({i}) data with Ok (_,t) => (cols t, map (fun r => map sh (snd r)) (rows t)) | Err _ => ([],[]) end.\nPrint r{k}.")
open(os.path.join(TMP,'Conf.v'),'w').write("\n".join(out)+"\n")
p=subprocess.run(f"cd {TMP} && timeout 3000 coqc -Q {THEORIES} Verif Conf.v",shell=True,capture_output=True,text=True)
txt=p.stdout
print(p.stderr[-1500:])
blocks=re.split(r"\nr(\d+) = ","\n"+txt)
for k,(n,i) in enumerate(cases):
    try: b=blocks[blocks.index(str(k))+1]
    except ValueError: print(n,"NO OUTPUT");continue
    b=b.split("\n     :")[0]
    names=re.findall(r'"([^"]*)"',b.split("[[")[0])
    vals=[[int(x) for x in re.findall(r"-?\d+",r)] for r in re.findall(r"\[([^\[\]]*)\]",b.split(",\n",1)[1] if ",\n" in b else b[b.index("[["):]) if '"' not in r]
    fn=f'/repo/tests/data/test_{n}_on_sample_data.csv'
    rd=list(csv.reader(open(fn))); hdr=rd[0][1:]; exp={r[0]:r[1:] for r in rd[1:]}
    bad=0; nan=0; tot=0; ex=None
    for j,v in enumerate(vals):
        e=exp.get(rows[j]['date'])
        if e is None: bad+=1; ex=ex or ("nodate",j); continue
        for c,x in enumerate(v):
            tot+=1
            es=e[hdr.index(names[c])] if names[c] in hdr else e[c]
            if es in('','nan','NaN'): m=(x==-999999999999999999999); nan+=1
            elif x==-999999999999999999999: m=False
            else:
                m=abs(x/1e10-float(es))<=1.01e-4*max(1,abs(float(es))*1e-4)
            if not m: bad+=1; ex=ex or (j,names[c],x/1e10,es)
    print(f"{n:45s} rows {len(vals)} cells {tot} nan {nan} bad {bad}",ex or '', '' if names==hdr else (names,hdr))
